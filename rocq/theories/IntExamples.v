(** A concrete kernel for faces that cross the x axis, and concrete faces. *)

From Coq Require Import Reals Lra Lia Psatz List Bool ZArith.
From Verif Require Import Base NumModel VecModel LinModel RoundModel PolyModel IntModel
  GeoSpec LinSpec RoundSpec PolySpec IntSpec GeoLemmas LinProofs BoxProofs EllProofs PolyProofs PolyBridge QuadProofs
  SegIntProofs SegIntProofs2 IntProofs FaceIntProofs.
Import ListNotations.
Local Open Scope R_scope.

Definition ox (x : R) : pt := mkV3 x 0 0.
Definition xaxis : line R := mkLine (ox 0) (ox 1).

(** the part of a face on the x axis: the chord of a circle, or between the x coordinates of
    two opposite corners *)
Definition ivl (f : face R) : R * R :=
  match f with
  | FDisk d => let w := sqrt (e_a d * e_a d - vy (e_c d) * vy (e_c d) - vz (e_c d) * vz (e_c d)) in
               (vx (e_c d) - w, vx (e_c d) + w)
  | FQuad q => (vx (q_0 q), vx (q_3 q))
  | FPoly p => (vx (nth 0 (po_cs p) zero3), vx (nth 2 (po_cs p) zero3))
  end.
Definition clip_lo (s : segment R) (f : face R) : R := Rmax (Rmin (vx (s_src s)) (vx (s_tgt s))) (fst (ivl f)).
Definition clip_hi (s : segment R) (f : face R) : R := Rmin (Rmax (vx (s_src s)) (vx (s_tgt s))) (snd (ivl f)).
Definition xk : kernel R := mkKernel R
  (fun _ _ _ => Some xaxis)
  (fun _ _ => Some (ox 0))
  (fun s1 s2 _ => [(s_src s1, s_tgt s1); (s_src s2, s_tgt s2)])
  (fun s f _ => if Rlt_dec (clip_lo s f) (clip_hi s f) then [(ox (clip_lo s f), ox (clip_hi s f))] else [])
  (fun s f _ => if Rle_dec (clip_lo s f) (clip_hi s f) then [s_src s; s_tgt s; ox (clip_lo s f)] else [s_src s; s_tgt s])
  (fun _ => mkBox (mkV3 (-1000) (-1000) (-1000)) (mkV3 1000 1000 1000))
  (fun _ => mkBox (mkV3 (-1000) (-1000) (-1000)) (mkV3 1000 1000 1000)).

(** ** segments of the x axis *)
Lemma ox_inj a b : ox a = ox b <-> a = b.
Proof. split; [intros E; injection E; auto|intros ->; reflexivity]. Qed.
Lemma xaxis_pts x : line_pts xaxis x <-> exists t, x = ox t.
Proof.
  unfold line_pts, on_line, xaxis. cbn [l_sup l_dir]. split; intros [t ->]; exists t; unfold ox, padd, pscale; cbn; f_equal; ring.
Qed.
Lemma ox_on a b x : on_segment (ox a) (ox b) x <-> exists t, x = ox t /\ (a <= t <= b \/ b <= t <= a).
Proof.
  assert (E : forall t, ox t = padd (ox 0) (pscale t (ox 1))) by (intros; unfold ox, padd, pscale; cbn; f_equal; ring).
  rewrite (E a), (E b), on_seg_1d. split; intros (t & A & B); exists t; split; try assumption;
    [rewrite E; exact B|rewrite <- E; exact A].
Qed.
Definition on_x (I : pt -> Prop) (a b : R) : Prop := forall x, I x <-> exists t, x = ox t /\ a <= t <= b.
Lemma on_x_at I a b t : on_x I a b -> (I (ox t) <-> a <= t <= b).
Proof. intros H. rewrite (H (ox t)). split; [intros (u & E & Hu); apply ox_inj in E; lra|eauto]. Qed.

Lemma seg_on_x (s : segment R) : (forall x, seg_pts s x -> line_pts xaxis x) ->
  exists a b, s = mkSeg (ox a) (ox b).
Proof.
  intros H. destruct (proj1 (xaxis_pts _) (H _ (seg_end_on _ _ (is_src s)))) as [a A].
  destruct (proj1 (xaxis_pts _) (H _ (seg_end_on _ _ (is_tgt s)))) as [b B]. exists a, b.
  destruct s as [p q]. cbn in *. congruence.
Qed.

Lemma xk_exact f tol : fst (ivl f) <= snd (ivl f) ->
  on_x (both (face_set f) (line_pts xaxis)) (fst (ivl f)) (snd (ivl f)) -> exact_on xk f xaxis tol.
Proof.
  intros Hi HX s Hn Hs. destruct (seg_on_x s Hs) as (a & b & ->).
  set (lo := clip_lo (mkSeg (ox a) (ox b)) f). set (hi := clip_hi (mkSeg (ox a) (ox b)) f).
  assert (B : forall x, both (seg_pts (mkSeg (ox a) (ox b))) (face_set f) x <-> exists t, x = ox t /\ lo <= t <= hi).
  { intros x. split.
    - intros [A F]. unfold seg_pts in A. cbn in A. apply ox_on in A as (t & -> & Ht). exists t. split; [reflexivity|].
      assert (fst (ivl f) <= t <= snd (ivl f)) as HI.
      { apply (on_x_at _ _ _ t HX). split; [exact F|]. apply xaxis_pts. eauto. }
      unfold lo, hi, clip_lo, clip_hi. cbn [s_src s_tgt ox vx].
      split; [apply Rmax_lub; [|lra]|apply Rmin_glb; [|lra]]; [unfold Rmin; destruct Rle_dec; lra|unfold Rmax; destruct Rle_dec; lra].
    - intros (t & -> & Ht). unfold lo, hi, clip_lo, clip_hi in Ht. cbn [s_src s_tgt ox vx] in Ht.
      pose proof (Rmax_l (Rmin a b) (fst (ivl f))). pose proof (Rmax_r (Rmin a b) (fst (ivl f))).
      pose proof (Rmin_l (Rmax a b) (snd (ivl f))). pose proof (Rmin_r (Rmax a b) (snd (ivl f))).
      split; [|apply (on_x_at _ _ _ t HX); lra]. unfold seg_pts. cbn. apply ox_on. exists t. split; [reflexivity|].
      assert (Rmin a b <= t <= Rmax a b) as [M1 M2] by lra. revert M1 M2. unfold Rmin, Rmax. destruct Rle_dec; lra. }
  split.
  - unfold common_ok. cbn [k_common xk]. fold lo hi. destruct (Rlt_dec lo hi).
    + left. exists (ox lo), (ox hi). split; [intros E; apply ox_inj in E; lra|]. split; [reflexivity|].
      intros x. rewrite B, ox_on. split; intros (t & -> & Ht); exists t; (split; [reflexivity|]); lra.
    + right. split; [reflexivity|]. intros x y Hx Hy. apply B in Hx as (t & -> & Ht). apply B in Hy as (u & -> & Hu).
      apply ox_inj. lra.
  - unfold cut_ok. cbn [k_cut xk]. fold lo hi. split.
    + intros Hno. destruct Rle_dec as [Hl|]; [|reflexivity]. exfalso. apply (Hno (ox lo)). apply B. exists lo. split; [reflexivity|lra].
    + intros p Hp. assert (Hb : both (seg_pts (mkSeg (ox a) (ox b))) (face_set f) p) by (apply Hp; reflexivity).
      apply B in Hb as (t & -> & Ht). destruct Rle_dec; [|lra].
      assert (E : ox lo = ox t) by (apply Hp, B; exists lo; split; [reflexivity|lra]). rewrite E. cbn.
      split; [lia|]. split; [auto|]. intros v [<-|[<-|[<-|[]]]]; auto.
      * left. left. reflexivity.
      * left. right. reflexivity.
Qed.

Lemma xk_fragments s1 s2 tol : nondeg s1 -> nondeg s2 -> (forall x, seg_pts s1 x -> line_pts xaxis x) ->
  (forall x, seg_pts s2 x -> line_pts xaxis x) -> fragments s1 s2 (k_fragment xk s1 s2 tol).
Proof.
  intros N1 N2 H1 H2. destruct (seg_on_x s1 H1) as (a & b & ->). destruct (seg_on_x s2 H2) as (c & d & ->).
  assert (N1' : a <> b) by (intros ->; apply N1; reflexivity).
  assert (N2' : c <> d) by (intros ->; apply N2; reflexivity). clear N1 N2 H1 H2.
  cbn [k_fragment xk s_src s_tgt]. split; [reflexivity|]. intros p Hp.
  assert (Hb : both (seg_pts (mkSeg (ox a) (ox b))) (seg_pts (mkSeg (ox c) (ox d))) p) by (apply Hp; reflexivity).
  assert (B : forall t, both (seg_pts (mkSeg (ox a) (ox b))) (seg_pts (mkSeg (ox c) (ox d))) (ox t) <->
     (a <= t <= b \/ b <= t <= a) /\ (c <= t <= d \/ d <= t <= c)).
  { intros t. unfold both, seg_pts. cbn [s_src s_tgt]. rewrite !ox_on. split.
    - intros [(u & E & Hu) (v & E' & Hv)]. apply ox_inj in E. apply ox_inj in E'. subst. auto.
    - intros [A C]. split; exists t; split; auto. }
  destruct Hb as [Hb1 Hb2]. pose proof Hb1 as Hb1'. unfold seg_pts in Hb1'. cbn in Hb1'. apply ox_on in Hb1' as (t & -> & _).
  pose proof (proj1 (B t) (conj Hb1 Hb2)) as [T1 T2].
  assert (U : forall u, (a <= u <= b \/ b <= u <= a) /\ (c <= u <= d \/ d <= u <= c) -> u = t).
  { intros u Hu. apply ox_inj, Hp, B, Hu. }
  (* the larger of the lower ends and the smaller of the upper ends are common *)
  pose proof (U (Rmax (Rmin a b) (Rmin c d))) as U1. pose proof (U (Rmin (Rmax a b) (Rmax c d))) as U2.
  assert (E12 : (t = a \/ t = b) /\ (t = c \/ t = d)).
  { unfold Rmin, Rmax in U1, U2.
    destruct (Rle_dec a b), (Rle_dec c d);
      repeat match goal with | H : context [Rle_dec ?x ?y] |- _ => destruct (Rle_dec x y) end; lra. }
  destruct E12 as [E1 E2].
  assert (I1 : is_end (mkSeg (ox a) (ox b)) (ox t)) by (unfold is_end; cbn; rewrite !ox_inj; exact E1).
  assert (I2 : is_end (mkSeg (ox c) (ox d)) (ox t)) by (unfold is_end; cbn; rewrite !ox_inj; exact E2).
  split; [reflexivity|]. split; [contradiction|]. split; [contradiction|]. split; [contradiction|]. split.
  - exists (ox a, ox b). split; [left; reflexivity|]. unfold is_end in I1. cbn in *. destruct I1; auto.
  - intros e v [<-|[<-|[]]] Hv; cbn in Hv; [left|right; left]; unfold is_end; cbn; destruct Hv; auto.
Qed.

(** ** faces in the planes z = 0 and y = 0 *)
Definition in_xy (f : face R) : Prop := forall x, plane_pts (face_plane f) x <-> vz x = 0.
Definition in_xz (f : face R) : Prop := forall x, plane_pts (face_plane f) x <-> vy x = 0.

Definition fair (f : face R) : Prop :=
  fst (ivl f) <= snd (ivl f) /\ on_x (both (face_set f) (line_pts xaxis)) (fst (ivl f)) (snd (ivl f)).

Lemma xk_meet f1 f2 : (in_xy f1 /\ in_xz f2) \/ (in_xz f1 /\ in_xy f2) ->
  forall x, both (plane_pts (face_plane f1)) (plane_pts (face_plane f2)) x <-> line_pts xaxis x.
Proof.
  intros Hp x. rewrite xaxis_pts. unfold both.
  assert (C : (vz x = 0 /\ vy x = 0) <-> exists t, x = ox t).
  { split; [intros [Hz Hy]; exists (vx x); destruct x; cbn in *; subst; reflexivity|intros [t ->]; split; reflexivity]. }
  rewrite <- C. destruct Hp as [[A B]|[A B]]; rewrite (A x), (B x); tauto.
Qed.
Lemma exact_on_ext K f (l l' : line R) tol : (forall x, line_pts l x <-> line_pts l' x) -> exact_on K f l tol -> exact_on K f l' tol.
Proof. intros E H s Hn Hs. apply H; [exact Hn|]. intros x Hx. apply E, Hs, Hx. Qed.

Lemma xk_ok f1 f2 eps : (in_xy f1 /\ in_xz f2) \/ (in_xz f1 /\ in_xy f2) -> fair f1 -> fair f2 -> kernel_ok xk f1 f2 eps.
Proof.
  intros Hp [A1 X1] [A2 X2]. pose proof (xk_meet f1 f2 Hp) as HM. split.
  - exists xaxis. split; [reflexivity|]. split; [|exact HM]. cbn. intros E. injection E. lra.
  - intros l [Ud Hl]. assert (EL : forall x, line_pts xaxis x <-> line_pts l x) by (intros; rewrite <- HM; apply Hl).
    split; [apply (exact_on_ext _ _ xaxis), xk_exact; auto|]. split; [apply (exact_on_ext _ _ xaxis), xk_exact; auto|].
    intros s1 s2 N1 N2 S1 S2. apply xk_fragments; auto; intros x Hx; apply EL; auto.
Qed.

(** parts that are intervals *)
Lemma on_x_seg I a b : on_x I a b -> a < b -> is_seg (mkSeg (ox a) (ox b)) I.
Proof.
  intros H Hab. unfold is_seg. cbn. split; [intros E; apply ox_inj in E; lra|]. intros x. rewrite (H x), ox_on.
  split; intros (t & -> & Ht); exists t; (split; [reflexivity|]); lra.
Qed.
Lemma on_x_point I a : on_x I a a -> is_point (ox a) I.
Proof.
  intros H x. rewrite (H x). split; [intros (t & -> & Ht); apply ox_inj; lra|]. intros ->. exists a. split; [reflexivity|lra].
Qed.
Lemma seg_ends_of I a b s : on_x I a b -> a < b -> is_seg s I -> forall e, is_end s e -> e = ox a \/ e = ox b.
Proof.
  intros H Hab Hs e He. pose proof (on_x_seg I a b H Hab) as Hx.
  change (is_end (mkSeg (ox a) (ox b)) e). apply (seg_ends_unique _ s); [apply Hx|apply Hs| |exact He].
  intros x. destruct Hx as [_ Hx]. destruct Hs as [_ Hs]. unfold seg_pts. rewrite <- Hs, <- Hx. reflexivity.
Qed.
Definition away (a b t eps : R) : Prop := a <= t <= b \/ t <= a - eps \/ b + eps <= t.
Lemma away_pts I a b t eps s : on_x I a b -> is_seg s I -> away a b t eps ->
  seg_pts s (ox t) \/ far_from (seg_pts s) eps (ox t).
Proof.
  intros H [_ Hs] [Ht|Ht]; unfold seg_pts.
  - left. apply Hs, (on_x_at _ _ _ t H), Ht.
  - right. intros q Hq. apply Hs in Hq. apply H in Hq as (u & -> & Hu).
    unfold dist, norm, dot, psub, ox. cbn.
    replace ((t - u) * (t - u) + (0 - 0) * (0 - 0) + (0 - 0) * (0 - 0)) with (Rsqr (t - u)) by (unfold Rsqr; ring).
    rewrite sqrt_Rsqr_abs. unfold Rabs. destruct Rcase_abs; lra.
Qed.
Lemma no_touch I1 I2 a b c d s1 s2 p : on_x I1 a b -> on_x I2 c d -> a < b -> c < d -> b <> c -> d <> a ->
  is_seg s1 I1 -> is_seg s2 I2 -> ~ touch_at s1 s2 p.
Proof.
  intros H1 H2 Hab Hcd Hn1 Hn2 [_ S1] [_ S2] [_ HT].
  assert (B : forall t, a <= t <= b /\ c <= t <= d <-> ox t = p).
  { intros t. rewrite <- HT. unfold both, seg_pts. rewrite <- S1, <- S2, (on_x_at _ _ _ t H1), (on_x_at _ _ _ t H2). reflexivity. }
  assert (Hp : exists t, p = ox t /\ a <= t <= b /\ c <= t <= d).
  { destruct (proj2 (HT p) eq_refl) as [A C]. unfold seg_pts in A, C. apply S1 in A. apply S2 in C.
    apply H1 in A as (t & -> & Ht). apply (on_x_at _ _ _ t H2) in C. eauto. }
  destruct Hp as (t & -> & Ht1 & Ht2).
  assert (U : forall u, a <= u <= b -> c <= u <= d -> u = t) by (intros; apply ox_inj, B; auto).
  pose proof (U (Rmax a c)) as U1. pose proof (U (Rmin b d)) as U2.
  unfold Rmax, Rmin in U1, U2. repeat destruct Rle_dec; lra.
Qed.
Lemma xk_clean f1 f2 eps a b c d :
  on_x (both (face_set f1) (plane_pts (face_plane f2))) a b -> on_x (both (face_set f2) (plane_pts (face_plane f1))) c d ->
  a < b -> c < d -> away c d a eps -> away c d b eps -> away a b c eps -> away a b d eps -> b <> c -> d <> a ->
  clean_faces f1 f2 eps.
Proof.
  intros H1 H2 Hab Hcd A1 A2 A3 A4 Hn1 Hn2. unfold clean_faces, clean.
  assert (NP : forall I u v p, on_x I u v -> u < v -> ~ is_point p I).
  { intros I u v p H Huv Hp. assert (E : ox u = ox v); [|apply ox_inj in E; lra].
    transitivity p; [|symmetry]; apply Hp; [apply (on_x_at _ _ _ u H)|apply (on_x_at _ _ _ v H)]; lra. }
  split; [|split].
  - intros s1 s2 S1 S2. split; [|intros p; apply (no_touch _ _ a b c d _ _ _ H1 H2); assumption]. split.
    + intros p Hp. destruct (seg_ends_of _ _ _ _ H1 Hab S1 p Hp) as [->| ->]; apply (away_pts _ c d _ _ _ H2 S2); assumption.
    + intros p Hp. destruct (seg_ends_of _ _ _ _ H2 Hcd S2 p Hp) as [->| ->]; apply (away_pts _ a b _ _ _ H1 S1); assumption.
  - intros p s [[P _]|[_ P]]; [destruct (NP _ _ _ p H1 Hab P)|destruct (NP _ _ _ p H2 Hcd P)].
  - intros p q P _ _. destruct (NP _ _ _ p H1 Hab P).
Qed.

(** the part of a face on the other plane is its part on the x axis *)
Lemma part_x f g : (in_xy f /\ in_xz g) \/ (in_xz f /\ in_xy g) -> face_ok f -> fair f ->
  on_x (both (face_set f) (plane_pts (face_plane g))) (fst (ivl f)) (snd (ivl f)).
Proof.
  intros Hp HF [_ X] x. rewrite <- (X x). pose proof (xk_meet f g Hp x) as M. unfold both in *. split.
  - intros [A B]. split; [exact A|]. apply M. split; [apply face_in; assumption|exact B].
  - intros [A B]. split; [exact A|]. apply M in B. apply B.
Qed.

Lemma xk_facing f1 f2 eps : in_xy f1 -> in_xz f2 -> face_ok f1 -> face_ok f2 -> fair f1 -> fair f2 ->
  oblique ang_tol (pl_n (face_plane f1)) (pl_n (face_plane f2)) -> supported f1 f2 -> fits f1 f2 eps ->
  larger f1 eps -> larger f2 eps -> facing xk f1 f2 eps.
Proof.
  intros P1 P2 F1 F2 G1 G2 HO HS HF L1 L2. split; [exact F1|]. split; [exact F2|]. split; [exact HS|]. split; [exact HO|].
  split; [apply xk_ok; auto|]. split; [apply xk_ok; auto|]. auto.
Qed.
Lemma xk_crossing f1 f2 eps : in_xy f1 -> in_xz f2 -> face_ok f1 -> face_ok f2 -> fair f1 -> fair f2 ->
  oblique ang_tol (pl_n (face_plane f1)) (pl_n (face_plane f2)) ->
  0 < eps -> supported f1 f2 -> fits f1 f2 eps ->
  eps <= snd (ivl f1) - fst (ivl f1) -> eps <= snd (ivl f2) - fst (ivl f2) ->
  away (fst (ivl f2)) (snd (ivl f2)) (fst (ivl f1)) eps -> away (fst (ivl f2)) (snd (ivl f2)) (snd (ivl f1)) eps ->
  away (fst (ivl f1)) (snd (ivl f1)) (fst (ivl f2)) eps -> away (fst (ivl f1)) (snd (ivl f1)) (snd (ivl f2)) eps ->
  snd (ivl f1) <> fst (ivl f2) -> snd (ivl f2) <> fst (ivl f1) -> crossing xk f1 f2 eps.
Proof.
  intros P1 P2 F1 F2 G1 G2 HO He HS HF L1 L2 A1 A2 A3 A4 N1 N2.
  assert (LG : forall f, fair f -> eps <= snd (ivl f) - fst (ivl f) -> larger f eps).
  { intros f [Hi X] Hl. exists (ox (fst (ivl f))), (ox (snd (ivl f))).
    assert (Hb : forall t, fst (ivl f) <= t <= snd (ivl f) -> face_set f (ox t)) by (intros t Ht; apply (on_x_at _ _ _ t X), Ht).
    split; [apply Hb; lra|]. split; [apply Hb; lra|]. unfold dist, norm, dot, psub, ox. cbn.
    match goal with |- _ <= sqrt ?e => replace e with (Rsqr (snd (ivl f) - fst (ivl f))) by (unfold Rsqr; ring) end.
    rewrite sqrt_Rsqr by lra. lra. }
  split; [|eapply xk_clean; [apply part_x; auto|apply part_x; auto| | | | | | | |]; try assumption; lra].
  apply xk_facing; auto.
Qed.

(** ** circular disks in the planes z = 0 and y = 0 *)
Definition e1 : pt := mkV3 1 0 0.
Definition e2 : pt := mkV3 0 1 0.
Definition e3 : pt := mkV3 0 0 1.
Definition disk_xy (x y r : R) : face R := FDisk (mkEll (mkV3 x y 0) e1 e2 e3 r r).
Definition disk_xz (x z r : R) : face R := FDisk (mkEll (mkV3 x 0 z) e3 e1 e2 r r).


Lemma half_chord a y r : 0 < r -> y * y <= r * r ->
  ((a / (1 * r)) ^ 2 + (- y / (1 * r)) ^ 2 <= 1 <-> - sqrt (r * r - y * y - 0 * 0) <= a <= sqrt (r * r - y * y - 0 * 0)).
Proof.
  intros Hr Hy. set (w := sqrt _). assert (Hw : w * w = r * r - y * y) by (unfold w; rewrite sqrt_sqrt; lra).
  assert (Hw0 : 0 <= w) by apply sqrt_pos. clearbody w.
  replace ((a / (1 * r)) ^ 2 + (- y / (1 * r)) ^ 2) with ((a * a + y * y) / (r * r)) by (field; lra).
  assert (Hi : 0 < / (r * r)) by (apply Rinv_0_lt_compat; nra).
  assert (E : (a * a + y * y) / (r * r) <= 1 <-> a * a + y * y <= r * r).
  { unfold Rdiv. split; intros C.
    - apply (Rmult_le_reg_r (/ (r * r))); [exact Hi|]. rewrite Rinv_r by nra. exact C.
    - apply (Rmult_le_compat_r (/ (r * r))) in C; [|lra]. rewrite Rinv_r in C by nra. exact C. }
  rewrite E. split; intros C; [split; nra|nra].
Qed.
Ltac unit_tac := unfold ortho_basis, unit3, ortho, dot, det3, e1, e2, e3; cbn; repeat split; ring.
Lemma disk_xy_ok x y r : 0 < r -> face_ok (disk_xy x y r).
Proof. intros Hr. cbn. split; [|lra]. split; [unit_tac|cbn; auto]. Qed.
Lemma disk_xz_ok x z r : 0 < r -> face_ok (disk_xz x z r).
Proof. intros Hr. cbn. split; [|lra]. split; [unit_tac|cbn; auto]. Qed.
Lemma disk_xy_in x y r : in_xy (disk_xy x y r).
Proof. intros p. unfold plane_pts, on_plane, disk_xy, dot, psub, e3. cbn. lra. Qed.
Lemma disk_xz_in x z r : in_xz (disk_xz x z r).
Proof. intros p. unfold plane_pts, on_plane, disk_xz, dot, psub, e2. cbn. lra. Qed.
Lemma disk_xy_fair x y r : 0 < r -> y * y <= r * r -> fair (disk_xy x y r).
Proof.
  intros Hr Hy. pose proof (fun a => half_chord a y r Hr Hy) as HC. unfold fair, disk_xy, ivl. cbn [e_a e_c vx vy vz fst snd].
  pose proof (sqrt_pos (r * r - y * y - 0 * 0)). split; [lra|]. intros p. unfold both. rewrite xaxis_pts. cbn [face_set]. split.
  - intros [(a & b & H1 & ->) [t E]]. unfold at_coords, padd, pscale, e1, e2 in E. cbn in E. unfold ox in E.
    injection E as E1 E2 E3. exists (x + a). split.
    + unfold at_coords, padd, pscale, e1, e2, ox. cbn. f_equal; lra.
    + assert (Eb : b = - y) by lra. rewrite Eb in H1. cbn [e_a e_b] in H1. apply HC in H1. lra.
  - intros (t & -> & Ht). split; [|eauto]. exists (t - x), (- y). split.
    + cbn [e_a e_b]. apply HC. lra.
    + unfold at_coords, padd, pscale, e1, e2, ox. cbn. f_equal; lra.
Qed.
Lemma disk_xz_fair x z r : 0 < r -> z * z <= r * r -> fair (disk_xz x z r).
Proof.
  intros Hr Hy. pose proof (fun a => half_chord a z r Hr Hy) as HC. unfold fair, disk_xz, ivl. cbn [e_a e_c vx vy vz fst snd].
  replace (r * r - 0 * 0 - z * z) with (r * r - z * z - 0 * 0) by ring.
  pose proof (sqrt_pos (r * r - z * z - 0 * 0)). split; [lra|]. intros p. unfold both. rewrite xaxis_pts. cbn [face_set]. split.
  - intros [(b & a & H1 & ->) [t E]]. unfold at_coords, padd, pscale, e1, e3 in E. cbn in E. unfold ox in E.
    injection E as E1 E2 E3. exists (x + a). split.
    + unfold at_coords, padd, pscale, e1, e3, ox. cbn. f_equal; lra.
    + assert (Eb : b = - z) by lra. rewrite Eb in H1. cbn [e_a e_b] in H1.
      rewrite Rplus_comm in H1. apply HC in H1. lra.
  - intros (t & -> & Ht). split; [|eauto]. exists (- z), (t - x). split.
    + cbn [e_a e_b]. rewrite Rplus_comm. apply HC. lra.
    + unfold at_coords, padd, pscale, e1, e3, ox. cbn. f_equal; lra.
Qed.
Lemma right_angle u v : unit3 u -> unit3 v -> dot u v = 0 -> oblique ang_tol u v.
Proof.
  intros U V H. unfold oblique, angle. rewrite H, (norm_unit _ U), (norm_unit _ V).
  replace (0 / (1 * 1)) with 0 by field. rewrite acos_0. pose proof ang_tol_small. pose proof PI2_1. lra.
Qed.
Lemma chord_mid r : 0 <= r -> sqrt (r * r - 0 * 0 - 0 * 0) = r.
Proof. intros. replace (r * r - 0 * 0 - 0 * 0) with (r * r) by ring. apply sqrt_square, H. Qed.
Lemma ivl_xy x r : 0 <= r -> ivl (disk_xy x 0 r) = (x - r, x + r).
Proof. intros H. unfold ivl, disk_xy. cbn [e_a e_c vx vy vz]. rewrite chord_mid by exact H. reflexivity. Qed.
Lemma ivl_xz x r : 0 <= r -> ivl (disk_xz x 0 r) = (x - r, x + r).
Proof. intros H. unfold ivl, disk_xz. cbn [e_a e_c vx vy vz]. rewrite chord_mid by exact H. reflexivity. Qed.

(** two disks that cross in a segment *)
Lemma disks_crossing : crossing xk (disk_xy 0 0 1) (disk_xz 1 0 1) (1 / 10).
Proof.
  apply xk_crossing; auto using disk_xy_in, disk_xz_in; rewrite ?ivl_xy, ?ivl_xz by lra; cbn [fst snd]; unfold away; try lra.
  - apply disk_xy_ok; lra.
  - apply disk_xz_ok; lra.
  - apply disk_xy_fair; lra.
  - apply disk_xz_fair; lra.
  - apply right_angle; unfold unit3, dot; cbn; ring.
  - exact I.
  - exact I.
Qed.

(** ** squares in the planes z = 0 and y = 0 *)
Definition sq_xy (a b h : R) : face R := FQuad (make_quad (mkV3 a (-h) 0) (mkV3 b (-h) 0) (mkV3 a h 0) (mkV3 b h 0)).
Definition sq_xz (a b h : R) : face R := FQuad (make_quad (mkV3 a 0 (-h)) (mkV3 b 0 (-h)) (mkV3 a 0 h) (mkV3 b 0 h)).
Definition corners_xz (a b h : R) : list pt := [mkV3 a 0 (-h); mkV3 b 0 (-h); mkV3 b 0 h; mkV3 a 0 h].
Definition pg_xz (a b h : R) : poly R := match make_poly (corners_xz a b h) with Ok p => p | _ => mkPoly [] (mkPlane zero3 zero3 zero3 zero3) zero3 0 false end.

Lemma hull_box cs (lo hi : pt) x : (forall c, In c cs -> in_box (mkBox lo hi) c) -> hull cs x -> in_box (mkBox lo hi) x.
Proof.
  intros Hc. induction 1 as [c Hi|a b x Ha IHa Hb IHb (t & Ht & ->)]; [auto|]. unfold in_box in *. cbn in *. nra.
Qed.
Lemma rect_x cs a b h (m : R -> R -> pt) : a < b -> 0 < h -> (forall s t, m s t = mkV3 s t 0) \/ (forall s t, m s t = mkV3 s 0 t) ->
  (forall c, In c cs <-> c = m a (-h) \/ c = m b (-h) \/ c = m a h \/ c = m b h) ->
  on_x (both (hull cs) (line_pts xaxis)) a b.
Proof.
  intros Hab Hh Hm Hc x. unfold both. rewrite xaxis_pts. split.
  - intros [H [t ->]]. exists t. split; [reflexivity|].
    assert (B : in_box (mkBox (mkV3 a (-h) (-h)) (mkV3 b h h)) (ox t)).
    { apply (hull_box cs); [|exact H]. intros c Hi. apply Hc in Hi. unfold in_box.
      destruct Hm as [Hm|Hm]; rewrite !Hm in Hi; destruct Hi as [->|[->|[->| ->]]]; cbn; lra. }
    unfold in_box in B. cbn in B. lra.
  - intros (t & -> & Ht). split; [|eauto].
    assert (Ha : hull cs (ox a)).
    { apply (hull_between cs (m a (-h)) (m a h)); [apply hull_corner, Hc; auto|apply hull_corner, Hc; auto|].
      exists (1 / 2). split; [lra|]. destruct Hm as [Hm|Hm]; rewrite !Hm; unfold ox, padd, pscale; cbn; f_equal; lra. }
    assert (Hb : hull cs (ox b)).
    { apply (hull_between cs (m b (-h)) (m b h)); [apply hull_corner, Hc; auto|apply hull_corner, Hc; auto|].
      exists (1 / 2). split; [lra|]. destruct Hm as [Hm|Hm]; rewrite !Hm; unfold ox, padd, pscale; cbn; f_equal; lra. }
    apply (hull_between cs (ox a) (ox b)); [exact Ha|exact Hb|]. apply ox_on. exists t. split; [reflexivity|lra].
Qed.
Lemma orient_flat (N a b c : pt) : orient N a b c = dot N (cross (psub b a) (psub c a)).
Proof. unfold orient. clear. unfold det3, dot, cross, psub. cbn. ring. Qed.
Definition e2n : pt := mkV3 0 (-1) 0.
Lemma sq_xy_convex a b h : a < b -> 0 < h -> convex_ccw e3 (around (mkV3 a (-h) 0) (mkV3 b (-h) 0) (mkV3 a h 0) (mkV3 b h 0)).
Proof.
  intros Hab Hh. apply quad_convex_ccw. split; [unfold unit3, dot, e3; cbn; ring|]. split.
  - intros u v Hu Hv. unfold around in *. cbn in Hu, Hv. unfold dot, psub, e3.
    destruct Hu as [<-|[<-|[<-|[<-|[]]]]]; destruct Hv as [<-|[<-|[<-|[<-|[]]]]]; cbn; ring.
  - unfold orient, det3, psub, e3. cbn. assert (0 < (b - a) * h) by nra. split; [nra|]. split; [nra|]. split; nra.
Qed.
Lemma sq_xz_convex a b h : a < b -> 0 < h -> convex_ccw e2n (around (mkV3 a 0 (-h)) (mkV3 b 0 (-h)) (mkV3 a 0 h) (mkV3 b 0 h)).
Proof.
  intros Hab Hh. apply quad_convex_ccw. split; [unfold unit3, dot, e2n; cbn; ring|]. split.
  - intros u v Hu Hv. unfold around in *. cbn in Hu, Hv. unfold dot, psub, e2n.
    destruct Hu as [<-|[<-|[<-|[<-|[]]]]]; destruct Hv as [<-|[<-|[<-|[<-|[]]]]]; cbn; ring.
  - unfold orient, det3, psub, e2n. cbn. assert (0 < (b - a) * h) by nra. split; [nra|]. split; [nra|]. split; nra.
Qed.
Lemma pg_convex a b h : a < b -> 0 < h -> convex_ccw e2n (corners_xz a b h).
Proof.
  intros Hab Hh. split; [unfold unit3, dot, e2n; cbn; ring|]. split; [|split; [cbn; lia|split]].
  - intros u v Hu Hv. unfold corners_xz in *. cbn in Hu, Hv. unfold dot, psub, e2n.
    destruct Hu as [<-|[<-|[<-|[<-|[]]]]]; destruct Hv as [<-|[<-|[<-|[<-|[]]]]]; cbn; ring.
  - intros i j k Hij Hk. cbn in Hk. assert (0 < (b - a) * h) by nra.
    assert (Hc : ((i = 0 /\ j = 1 /\ k = 2) \/ (i = 0 /\ j = 1 /\ k = 3) \/ (i = 0 /\ j = 2 /\ k = 3) \/ (i = 1 /\ j = 2 /\ k = 3))%nat) by lia.
    destruct Hc as [(-> & -> & ->)|[(-> & -> & ->)|[(-> & -> & ->)|(-> & -> & ->)]]];
      unfold orient, det3, psub, e2n, corners_xz; cbn; nra.
  - unfold orient, det3, psub, e2n, corners_xz; cbn. assert (0 < (b - a) * h) by nra. nra.
Qed.
Lemma pg_made a b h : a < b -> 0 < h -> make_poly (corners_xz a b h) = Ok (pg_xz a b h) /\
  po_cs (pg_xz a b h) = corners_xz a b h /\ po_convex (pg_xz a b h) = true /\ pl_n (po_plane (pg_xz a b h)) = e2n /\
  pl_sup (po_plane (pg_xz a b h)) = mkV3 a 0 (-h).
Proof.
  intros Hab Hh. destruct (poly_made e2n (corners_xz a b h) (pg_convex a b h Hab Hh)) as (pg & E & H1 & H2 & _ & H3 & H4).
  - intros ab Hi. unfold edges, corners_xz in Hi. cbn in Hi.
    destruct Hi as [<-|[<-|[<-|[<-|[]]]]]; cbn; intros E; injection E; lra.
  - unfold pg_xz. rewrite E. auto.
Qed.
Lemma sq_xy_plane a b h : a < b -> 0 < h -> face_plane (sq_xy a b h) = plane_3p (mkV3 a (-h) 0) (mkV3 b (-h) 0) (mkV3 a h 0) /\
  pl_n (face_plane (sq_xy a b h)) = e3.
Proof.
  intros Hab Hh. split; [reflexivity|]. cbn [sq_xy face_plane make_quad q_plane].
  pose proof (sq_xy_convex a b h Hab Hh) as HC. apply quad_convex_ccw in HC as (HU & HP & HF & _).
  destruct (planar_quad _ _ _ _ _ HP) as (H1 & H2 & _). apply (plane_3p_normal e3 _ _ _ HU H1 H2 HF).
Qed.
Lemma sq_xz_plane a b h : a < b -> 0 < h -> face_plane (sq_xz a b h) = plane_3p (mkV3 a 0 (-h)) (mkV3 b 0 (-h)) (mkV3 a 0 h) /\
  pl_n (face_plane (sq_xz a b h)) = e2n.
Proof.
  intros Hab Hh. split; [reflexivity|]. cbn [sq_xz face_plane make_quad q_plane].
  pose proof (sq_xz_convex a b h Hab Hh) as HC. apply quad_convex_ccw in HC as (HU & HP & HF & _).
  destruct (planar_quad _ _ _ _ _ HP) as (H1 & H2 & _). apply (plane_3p_normal e2n _ _ _ HU H1 H2 HF).
Qed.
Lemma sq_xy_ok a b h : a < b -> 0 < h -> face_ok (sq_xy a b h).
Proof. intros Hab Hh. exists e3. do 4 eexists. split; [apply (sq_xy_convex a b h Hab Hh)|reflexivity]. Qed.
Lemma sq_xz_ok a b h : a < b -> 0 < h -> face_ok (sq_xz a b h).
Proof. intros Hab Hh. exists e2n. do 4 eexists. split; [apply (sq_xz_convex a b h Hab Hh)|reflexivity]. Qed.
Lemma pg_ok a b h : a < b -> 0 < h -> face_ok (FPoly (pg_xz a b h)).
Proof.
  intros Hab Hh. destruct (pg_made a b h Hab Hh) as (E & _ & HC & _). exists e2n, (corners_xz a b h).
  split; [apply pg_convex; assumption|]. auto.
Qed.
Lemma sq_xy_in a b h : a < b -> 0 < h -> in_xy (sq_xy a b h).
Proof.
  intros Hab Hh p. unfold plane_pts, on_plane. rewrite (proj2 (sq_xy_plane a b h Hab Hh)), (proj1 (sq_xy_plane a b h Hab Hh)).
  unfold dot, psub, e3. cbn. lra.
Qed.
Lemma sq_xz_in a b h : a < b -> 0 < h -> in_xz (sq_xz a b h).
Proof.
  intros Hab Hh p. unfold plane_pts, on_plane. rewrite (proj2 (sq_xz_plane a b h Hab Hh)), (proj1 (sq_xz_plane a b h Hab Hh)).
  unfold dot, psub, e2n. cbn. lra.
Qed.
Lemma pg_in a b h : a < b -> 0 < h -> in_xz (FPoly (pg_xz a b h)).
Proof.
  intros Hab Hh p. destruct (pg_made a b h Hab Hh) as (_ & _ & _ & En & Es). unfold plane_pts, on_plane. cbn [face_plane].
  rewrite En, Es. unfold dot, psub, e2n. cbn. lra.
Qed.
Lemma sq_xy_ivl a b h : ivl (sq_xy a b h) = (a, b).
Proof. reflexivity. Qed.
Lemma sq_xz_ivl a b h : ivl (sq_xz a b h) = (a, b).
Proof. reflexivity. Qed.
Lemma sq_xy_fair a b h : a < b -> 0 < h -> fair (sq_xy a b h).
Proof.
  intros Hab Hh. unfold fair. rewrite sq_xy_ivl. cbn [fst snd]. split; [lra|].
  change (face_set (sq_xy a b h)) with (hull (around (mkV3 a (-h) 0) (mkV3 b (-h) 0) (mkV3 a h 0) (mkV3 b h 0))).
  apply (rect_x _ a b h (fun s t => mkV3 s t 0)); auto. intros c. unfold around. cbn. intuition.
Qed.
Lemma sq_xz_fair a b h : a < b -> 0 < h -> fair (sq_xz a b h).
Proof.
  intros Hab Hh. unfold fair. rewrite sq_xz_ivl. cbn [fst snd]. split; [lra|].
  change (face_set (sq_xz a b h)) with (hull (around (mkV3 a 0 (-h)) (mkV3 b 0 (-h)) (mkV3 a 0 h) (mkV3 b 0 h))).
  apply (rect_x _ a b h (fun s t => mkV3 s 0 t)); auto. intros c. unfold around. cbn. intuition.
Qed.
Lemma pg_ivl a b h : a < b -> 0 < h -> ivl (FPoly (pg_xz a b h)) = (a, b).
Proof. intros Hab Hh. destruct (pg_made a b h Hab Hh) as (_ & E & _). cbn [ivl]. rewrite E. reflexivity. Qed.
Lemma pg_fair a b h : a < b -> 0 < h -> fair (FPoly (pg_xz a b h)).
Proof.
  intros Hab Hh. destruct (pg_made a b h Hab Hh) as (_ & E & _). unfold fair. rewrite pg_ivl by assumption. cbn [fst snd].
  split; [lra|]. cbn [face_set]. rewrite E.
  apply (rect_x _ a b h (fun s t => mkV3 s 0 t)); auto. intros c. unfold corners_xz. cbn. intuition.
Qed.

Lemma quads_crossing : crossing xk (sq_xy 0 2 1) (sq_xz (1 / 2) 1 3) (1 / 10).
Proof.
  apply xk_crossing; rewrite ?sq_xy_ivl, ?sq_xz_ivl; cbn [fst snd]; unfold away; try lra.
  - apply sq_xy_in; lra.
  - apply sq_xz_in; lra.
  - apply sq_xy_ok; lra.
  - apply sq_xz_ok; lra.
  - apply sq_xy_fair; lra.
  - apply sq_xz_fair; lra.
  - rewrite (proj2 (sq_xy_plane 0 2 1 ltac:(lra) ltac:(lra))), (proj2 (sq_xz_plane (1 / 2) 1 3 ltac:(lra) ltac:(lra))).
    apply right_angle; unfold unit3, dot, e3, e2n; cbn; ring.
  - exact I.
  - exact I.
Qed.

(** two disks that touch the x axis at the origin, on different sides *)
Lemma disk_larger_xy x y r : 0 < r -> larger (disk_xy x y r) r.
Proof.
  intros Hr. exists (mkV3 (x + r) y 0), (mkV3 x y 0). cbn [disk_xy face_set]. split; [|split].
  - exists r, 0. cbn [e_a e_b e_c e_maj e_min]. split; [|unfold at_coords, padd, pscale, e1, e2; cbn; f_equal; ring].
    replace ((r / (1 * r)) ^ 2 + (0 / (1 * r)) ^ 2) with 1 by (field; lra). lra.
  - exists 0, 0. cbn [e_a e_b e_c e_maj e_min]. split; [|unfold at_coords, padd, pscale, e1, e2; cbn; f_equal; ring].
    replace ((0 / (1 * r)) ^ 2 + (0 / (1 * r)) ^ 2) with 0 by (field; lra). lra.
  - unfold dist, norm, dot, psub. cbn. replace (_ + _ + _) with (r * r) by ring. rewrite sqrt_square; lra.
Qed.
Lemma disk_larger_xz x z r : 0 < r -> larger (disk_xz x z r) r.
Proof.
  intros Hr. exists (mkV3 (x + r) 0 z), (mkV3 x 0 z). cbn [disk_xz face_set]. split; [|split].
  - exists 0, r. cbn [e_a e_b e_c e_maj e_min]. split; [|unfold at_coords, padd, pscale, e1, e3; cbn; f_equal; ring].
    replace ((0 / (1 * r)) ^ 2 + (r / (1 * r)) ^ 2) with 1 by (field; lra). lra.
  - exists 0, 0. cbn [e_a e_b e_c e_maj e_min]. split; [|unfold at_coords, padd, pscale, e1, e3; cbn; f_equal; ring].
    replace ((0 / (1 * r)) ^ 2 + (0 / (1 * r)) ^ 2) with 0 by (field; lra). lra.
  - unfold dist, norm, dot, psub. cbn. replace (_ + _ + _) with (r * r) by ring. rewrite sqrt_square; lra.
Qed.
Lemma larger_le f r eps : eps <= r -> larger f r -> larger f eps.
Proof. intros H (x & y & A & B & C). exists x, y. split; [exact A|]. split; [exact B|]. lra. Qed.

Lemma disks_facing x1 y1 r1 x2 z2 r2 : 1 <= r1 -> 1 <= r2 -> y1 * y1 <= r1 * r1 -> z2 * z2 <= r2 * r2 ->
  facing xk (disk_xy x1 y1 r1) (disk_xz x2 z2 r2) (1 / 10).
Proof.
  intros H1 H2 Hy Hz. apply xk_facing; auto using disk_xy_in, disk_xz_in; try exact I.
  - apply disk_xy_ok; lra.
  - apply disk_xz_ok; lra.
  - apply disk_xy_fair; lra.
  - apply disk_xz_fair; lra.
  - apply right_angle; unfold unit3, dot; cbn; ring.
  - apply (larger_le _ r1); [lra|]. apply disk_larger_xy; lra.
  - apply (larger_le _ r2); [lra|]. apply disk_larger_xz; lra.
Qed.
Lemma touching_points :
  is_point (ox 0) (both (face_set (disk_xy 0 1 1)) (plane_pts (face_plane (disk_xz 0 1 1)))) /\
  is_point (ox 0) (both (face_set (disk_xz 0 1 1)) (plane_pts (face_plane (disk_xy 0 1 1)))).
Proof.
  split; apply on_x_point.
  - pose proof (part_x (disk_xy 0 1 1) (disk_xz 0 1 1)) as H.
    replace (fst (ivl (disk_xy 0 1 1))) with 0 in H; [replace (snd (ivl (disk_xy 0 1 1))) with 0 in H; [apply H|]|].
    + left. split; [apply disk_xy_in|apply disk_xz_in].
    + apply disk_xy_ok; lra.
    + apply disk_xy_fair; lra.
    + cbn. replace (1 * 1 - 1 * 1 - 0 * 0) with 0 by ring. rewrite sqrt_0. ring.
    + cbn. replace (1 * 1 - 1 * 1 - 0 * 0) with 0 by ring. rewrite sqrt_0. ring.
  - pose proof (part_x (disk_xz 0 1 1) (disk_xy 0 1 1)) as H.
    replace (fst (ivl (disk_xz 0 1 1))) with 0 in H; [replace (snd (ivl (disk_xz 0 1 1))) with 0 in H; [apply H|]|].
    + right. split; [apply disk_xz_in|apply disk_xy_in].
    + apply disk_xz_ok; lra.
    + apply disk_xz_fair; lra.
    + cbn. replace (1 * 1 - 0 * 0 - 1 * 1) with 0 by ring. rewrite sqrt_0. ring.
    + cbn. replace (1 * 1 - 0 * 0 - 1 * 1) with 0 by ring. rewrite sqrt_0. ring.
Qed.
Lemma points_missed : int_faces xk (disk_xy 0 1 1) (disk_xz 0 1 1) (1 / 10) = Ok IsEmpty /\
  face_set (disk_xy 0 1 1) (ox 0) /\ face_set (disk_xz 0 1 1) (ox 0).
Proof.
  destruct touching_points as [P1 P2]. apply (int_faces_points xk _ _ (1 / 10) (ox 0)); [lra| |exact P1|exact P2].
  apply disks_facing; lra.
Qed.

(** two disks that touch in the origin, whose parts on the x axis are segments *)
Lemma boxed_xk f : (forall x, face_set f x -> in_box (mkBox (mkV3 (-1000) (-1000) (-1000)) (mkV3 1000 1000 1000)) x) -> boxed xk f.
Proof. intros H x Hx. apply H, Hx. Qed.
Lemma in_ball_box f r : reach f r -> (forall i, In i [vx (face_center f); vy (face_center f); vz (face_center f)] -> -1000 + r <= i <= 1000 - r) ->
  boxed xk f.
Proof.
  intros HR Hc. apply boxed_xk. intros x Hx. specialize (HR x Hx).
  pose proof (Hc (vx (face_center f)) ltac:(cbn; auto)). pose proof (Hc (vy (face_center f)) ltac:(cbn; auto)).
  pose proof (Hc (vz (face_center f)) ltac:(cbn; auto)).
  assert (B : forall u : R, u * u <= dot (psub (face_center f) x) (psub (face_center f) x) -> -r <= u <= r).
  { intros u Hu. unfold dist in HR. rewrite <- norm_sq in Hu. pose proof (sqrt_pos (dot (psub (face_center f) x) (psub (face_center f) x))) as H2.
    fold (norm (psub (face_center f) x)) in H2. split; nra. }
  clear HR. revert B. unfold dot, psub. cbn [vx vy vz]. unfold in_box. cbn [b_min b_max vx vy vz].
  set (u := vx (face_center f) - vx x). set (v := vy (face_center f) - vy x). set (w := vz (face_center f) - vz x). intros B.
  pose proof (B u ltac:(nra)). pose proof (B v ltac:(nra)). pose proof (B w ltac:(nra)). unfold u, v, w in *. lra.
Qed.
Lemma disk_xy_boxed x y r : 0 < r <= 100 -> -500 <= x <= 500 -> -500 <= y <= 500 -> boxed xk (disk_xy x y r).
Proof.
  intros Hr Hx Hy. apply (in_ball_box _ r); [apply reach_disk; [apply disk_xy_ok; lra|cbn; lra]|].
  cbn. intros i [<-|[<-|[<-|[]]]]; lra.
Qed.
Lemma disk_xz_boxed x y r : 0 < r <= 100 -> -500 <= x <= 500 -> -500 <= y <= 500 -> boxed xk (disk_xz x y r).
Proof.
  intros Hr Hx Hy. apply (in_ball_box _ r); [apply reach_disk; [apply disk_xz_ok; lra|cbn; lra]|].
  cbn. intros i [<-|[<-|[<-|[]]]]; lra.
Qed.
Lemma touching_segs :
  exists s, int_faces xk (disk_xy (-1) 0 1) (disk_xz 1 0 1) (1 / 10) = Ok (IsSeg s) /\ s_src s = s_tgt s.
Proof.
  assert (X1 : on_x (both (face_set (disk_xy (-1) 0 1)) (plane_pts (face_plane (disk_xz 1 0 1)))) (-2) 0).
  { pose proof (part_x (disk_xy (-1) 0 1) (disk_xz 1 0 1)) as H. rewrite ivl_xy in H by lra. cbn [fst snd] in H.
    replace (-1 - 1) with (-2) in H by ring. replace (-1 + 1) with 0 in H by ring. apply H.
    - left. split; [apply disk_xy_in|apply disk_xz_in].
    - apply disk_xy_ok; lra.
    - apply disk_xy_fair; lra. }
  assert (X2 : on_x (both (face_set (disk_xz 1 0 1)) (plane_pts (face_plane (disk_xy (-1) 0 1)))) 0 2).
  { pose proof (part_x (disk_xz 1 0 1) (disk_xy (-1) 0 1)) as H. rewrite ivl_xz in H by lra. cbn [fst snd] in H.
    replace (1 - 1) with 0 in H by ring. replace (1 + 1) with 2 in H by ring. apply H.
    - right. split; [apply disk_xz_in|apply disk_xy_in].
    - apply disk_xz_ok; lra.
    - apply disk_xz_fair; lra. }
  pose proof (on_x_seg _ _ _ X1 ltac:(lra)) as S1. pose proof (on_x_seg _ _ _ X2 ltac:(lra)) as S2.
  apply (int_faces_touch xk _ _ (1 / 10) (mkSeg (ox (-2)) (ox 0)) (mkSeg (ox 0) (ox 2)) (ox 0)); auto.
  - lra.
  - apply disks_facing; lra.
  - apply disk_xy_boxed; lra.
  - apply disk_xz_boxed; lra.
  - split; intros p [->| ->]; cbn [s_src s_tgt].
    + apply (away_pts _ _ _ _ _ _ X2 S2). unfold away. lra.
    + apply (away_pts _ _ _ _ _ _ X2 S2). unfold away. lra.
    + apply (away_pts _ _ _ _ _ _ X1 S1). unfold away. lra.
    + apply (away_pts _ _ _ _ _ _ X1 S1). unfold away. lra.
  - split.
    + exists 1. split; [lra|]. unfold seg_vec, ox. cbn. pq; ring.
    + intros x. unfold both, seg_pts. cbn [s_src s_tgt]. rewrite !ox_on. split.
      * intros [(t & -> & Ht) (u & E & Hu)]. apply ox_inj in E. apply ox_inj. lra.
      * intros ->. split; exists 0; split; auto; lra.
Qed.

(** a large disk and a small polygon near its boundary *)
Definition big : face R := disk_xy 0 0 100.
Definition small : face R := FPoly (pg_xz (179 / 2) (181 / 2) (1 / 2)).
Lemma small_size : nsqrt (max_from n0 (poly_sq_radii (pg_xz (179 / 2) (181 / 2) (1 / 2)))) <= 2.
Proof.
  destruct (pg_made (179 / 2) (181 / 2) (1 / 2) ltac:(lra) ltac:(lra)) as (E & Ec & _).
  set (p := pg_xz _ _ _) in *. pose proof (poly_center_hull _ _ _ (pg_convex (179 / 2) (181 / 2) (1 / 2) ltac:(lra) ltac:(lra)) E) as HH.
  cbn [nsqrt R_num]. assert (Hall : forall c, In c (po_cs p) -> dot (psub c (po_c p)) (psub c (po_c p)) <= 4).
  { intros c Hc. rewrite Ec in Hc.
    assert (HB : in_box (mkBox (mkV3 (179 / 2) 0 (-(1 / 2))) (mkV3 (181 / 2) 0 (1 / 2))) (po_c p)).
    { apply (hull_box (corners_xz (179 / 2) (181 / 2) (1 / 2))); [|exact HH]. intros k Hk. unfold corners_xz in Hk. cbn in Hk.
      unfold in_box. destruct Hk as [<-|[<-|[<-|[<-|[]]]]]; cbn; lra. }
    unfold in_box in HB. cbn in HB. unfold corners_xz in Hc. cbn in Hc. unfold dot, psub.
    destruct Hc as [<-|[<-|[<-|[<-|[]]]]]; cbn; nra. }
  assert (Hm : max_from n0 (poly_sq_radii p) <= 4).
  { destruct (max_from_mem (poly_sq_radii p) (n0 : R)) as [->|Hi]; [rn; lra|].
    unfold poly_sq_radii in Hi at 2. apply in_map_iff in Hi as (c & Ei & Hc). rewrite <- Ei.
    unfold seg_sqlen. cbn [s_src s_tgt]. rewrite vec_to_psub, sqlen_dot. apply Hall, Hc. }
  apply Rle_trans with (sqrt 4); [apply sqrt_le_1_alt, Hm|]. replace 4 with (2 * 2) by ring. rewrite sqrt_square; lra.
Qed.
Lemma big_ivl : ivl big = (0 - 100, 0 + 100).
Proof. apply ivl_xy. lra. Qed.
Lemma small_ivl : ivl small = (179 / 2, 181 / 2).
Proof. apply pg_ivl; lra. Qed.
Lemma small_larger : larger small (1 / 10).
Proof.
  pose proof (pg_fair (179 / 2) (181 / 2) (1 / 2) ltac:(lra) ltac:(lra)) as [_ X]. rewrite pg_ivl in X by lra. cbn [fst snd] in X.
  exists (ox (179 / 2)), (ox (181 / 2)). split; [apply (on_x_at _ _ _ (179 / 2) X); lra|]. split; [apply (on_x_at _ _ _ (181 / 2) X); lra|].
  unfold dist, norm, dot, psub, ox. cbn. match goal with |- _ <= sqrt ?e => replace e with (1 * 1) by field end. rewrite sqrt_square; lra.
Qed.
Lemma to_dir_e1 : to_dir (ox 1) = ox 1.
Proof. replace (ox 1) with (pscale 1 e1) at 1 by (unfold ox, pscale, e1; cbn; f_equal; ring). rewrite to_dir_pos; [reflexivity|lra|unfold unit3, dot, e1; cbn; ring]. Qed.
Lemma xaxis_unit : unit3 (l_dir xaxis).
Proof. unfold unit3, dot. cbn. ring. Qed.

Lemma big_small_ok : face_ok big /\ face_ok small /\ boxed xk big /\ boxed xk small /\ larger big (1 / 10) /\ larger small (1 / 10) /\
  oblique ang_tol (pl_n (face_plane big)) (pl_n (face_plane small)) /\
  kernel_ok xk big small (1 / 10) /\ kernel_ok xk small big (1 / 10) /\ clean_faces big small (1 / 10).
Proof.
  assert (FB : face_ok big) by (apply disk_xy_ok; lra). assert (FS : face_ok small) by (apply pg_ok; lra).
  assert (GB : fair big) by (apply disk_xy_fair; lra). assert (GS : fair small) by (apply pg_fair; lra).
  assert (PB : in_xy big) by apply disk_xy_in. assert (PS : in_xz small) by (apply pg_in; lra).
  split; [exact FB|]. split; [exact FS|]. split; [apply disk_xy_boxed; lra|]. split.
  { apply boxed_xk. intros x Hx. cbn [small face_set] in Hx.
    destruct (pg_made (179 / 2) (181 / 2) (1 / 2) ltac:(lra) ltac:(lra)) as (_ & Ec & _). rewrite Ec in Hx.
    apply (hull_box (corners_xz (179 / 2) (181 / 2) (1 / 2))); [|exact Hx]. intros k Hk. unfold corners_xz in Hk. cbn in Hk.
    unfold in_box. destruct Hk as [<-|[<-|[<-|[<-|[]]]]]; cbn; lra. }
  split; [apply (larger_le _ 100); [lra|apply disk_larger_xy; lra]|]. split; [apply small_larger|].
  split.
  { destruct (pg_made (179 / 2) (181 / 2) (1 / 2) ltac:(lra) ltac:(lra)) as (_ & _ & _ & En & _).
    cbn [small face_plane]. rewrite En. apply right_angle; unfold unit3, dot, e2n; cbn; ring. }
  split; [apply xk_ok; auto|]. split; [apply xk_ok; auto|].
  pose proof (part_x big small (or_introl (conj PB PS)) FB GB) as X1.
  pose proof (part_x small big (or_intror (conj PS PB)) FS GS) as X2.
  rewrite big_ivl in X1. rewrite small_ivl in X2. cbn [fst snd] in X1, X2.
  apply (xk_clean _ _ _ _ _ _ _ X1 X2); unfold away; lra.
Qed.

Lemma big_small_missed : int_faces xk big small (1 / 10) = Ok IsEmpty /\ face_set big (ox 90) /\ face_set small (ox 90).
Proof.
  destruct big_small_ok as (FB & FS & BB & BS & LB & LS & HO & K12 & K21 & _).
  assert (GB : fair big) by (apply disk_xy_fair; lra). assert (GS : fair small) by (apply pg_fair; lra).
  assert (PB : in_xy big) by apply disk_xy_in. assert (PS : in_xz small) by (apply pg_in; lra).
  assert (H90 : face_set big (ox 90) /\ face_set small (ox 90)).
  { destruct GB as [_ X1]. destruct GS as [_ X2]. rewrite big_ivl in X1. rewrite small_ivl in X2. cbn [fst snd] in *.
    split; [apply (on_x_at _ _ _ 90 X1); lra|apply (on_x_at _ _ _ 90 X2); lra]. }
  split; [|exact H90].
  set (p := pg_xz (179 / 2) (181 / 2) (1 / 2)). set (L := nsqrt (max_from n0 (poly_sq_radii p))).
  assert (HL : L <= 2) by exact small_size.
  assert (EI : int_faces xk big small (1 / 10) = if negb (do_intersect (k_face_box xk small) (k_face_box xk big) (1 / 10)) then Ok IsEmpty
    else planar_planar xk small big L (1 / 10) (1 / 10) (1 / 10)) by reflexivity.
  rewrite EI. clear EI. destruct negb; [reflexivity|].
  assert (HR : reach small L).
  { destruct (max_from_ge (poly_sq_radii p) n0) as [_ M2]. exact (reach_poly p _ M2). }
  pose proof (larger_reach _ _ _ LS HR) as HL2. clearbody L. clear p.
  unfold planar_planar.
  assert (PP : plane_plane xk (face_plane small) (face_plane big) (1 / 10) = Ok (IsLine xaxis)).
  { unfold plane_plane. rewrite gp_parallel_false by (apply oblique_sym, HO). cbn [k_plane_plane xk].
    unfold xaxis at 1 2. cbn [l_sup l_dir]. rewrite to_dir_e1. reflexivity. }
  rewrite PP. cbn [obind]. clear PP.
  pose proof (xk_meet small big (or_intror (conj PS PB))) as HM.
  assert (EX : exact_on xk small xaxis (1 / 10 * (1 / 10)) /\ exact_on xk big xaxis (1 / 10 * (1 / 10))).
  { split; apply xk_exact; [apply GS|apply GS|apply GB|apply GB]. }
  destruct (planar_line_exact xk small xaxis L (1 / 10) (1 / 10)) as (r1 & E1 & D1 & k1).
  { apply face_unit, FS. } { exact xaxis_unit. } { lra. }
  { intros x Hx. apply HM in Hx. apply Hx. } { lra. } { intros x Hx _. specialize (HR x Hx). lra. } { apply EX. }
  rewrite E1. cbn [obind]. clear E1.
  destruct GS as [_ X2]. rewrite small_ivl in X2. cbn [fst snd] in X2.
  assert (exists s1, r1 = IsSeg s1) as [s1 ->].
  { destruct k1 as [->|[[q ->]|H]]; [| |exact H]; exfalso; cbn in D1.
    - apply (D1 (ox 90)), (on_x_at _ _ _ 90 X2). lra.
    - assert (E : ox 90 = ox (179 / 2)); [|apply ox_inj in E; lra].
      transitivity q; [|symmetry]; apply D1; [apply (on_x_at _ _ _ 90 X2)|apply (on_x_at _ _ _ (179 / 2) X2)]; lra. }
  change (is_seg s1 (both (face_set small) (line_pts xaxis))) in D1.
  (* the part of the disk on its search segment *)
  assert (SE : search_segment big xaxis L = mkSeg (ox (20 * L)) (ox (- (20 * L)))).
  { assert (Hp : line_proj xaxis (face_center big) = ox 0).
    { rewrite line_proj_eq. unfold xaxis, big, disk_xy, ox, padd, pscale, dot, psub. cbn. f_equal; ring. }
    destruct (search_ends big xaxis L) as [S1 S2]. destruct (search_segment big xaxis L) as [a b]. cbn [s_src s_tgt] in S1, S2.
    rewrite S1, S2, Hp. unfold xaxis, ox, padd, pscale. cbn. f_equal; f_equal; ring. }
  assert (E2 : planar_line xk big xaxis L (1 / 10) (1 / 10) = Ok (IsSeg (mkSeg (ox (- (20 * L))) (ox (20 * L))))).
  { unfold planar_line. rewrite in_plane_line; [|apply face_unit, FB|lra|intros x Hx; apply HM in Hx; apply Hx].
    cbn [obind]. rewrite SE. cbn [k_common xk]. unfold clip_lo, clip_hi. rewrite big_ivl. cbn [fst snd s_src s_tgt ox vx].
    rewrite (Rmin_right (20 * L)), (Rmax_left (20 * L)) by lra. rewrite Rmax_left, Rmin_left by lra.
    destruct Rlt_dec; [reflexivity|lra]. }
  rewrite E2. cbn [obind]. clear E2 SE.
  set (s2 := mkSeg (ox (- (20 * L))) (ox (20 * L))).
  assert (X1 : on_x (seg_pts s2) (- (20 * L)) (20 * L)).
  { intros x. unfold s2, seg_pts. cbn [s_src s_tgt]. rewrite ox_on. split; intros (t & -> & Ht); exists t; (split; [reflexivity|]); lra. }
  pose proof (on_x_seg _ _ _ X1 ltac:(lra)) as D2. fold s2 in D2.
  assert (OL1 : forall x, seg_pts s1 x -> line_pts xaxis x) by (intros x Hx; apply (proj2 D1) in Hx; apply Hx).
  assert (OL2 : forall x, seg_pts s2 x -> line_pts xaxis x).
  { intros x Hx. apply X1 in Hx as (t & -> & _). apply xaxis_pts. eauto. }
  destruct (parallel_result xk s1 s2 (1 / 10)) as (r & E & D & kind).
  { apply D1. } { apply D2. } { lra. }
  { split; intros q Hq.
    - destruct (seg_ends_of _ _ _ _ X2 ltac:(lra) D1 q Hq) as [->| ->]; apply (away_pts _ _ _ _ _ _ X1 D2); unfold away; lra.
    - destruct (seg_ends_of _ _ _ _ X1 ltac:(lra) D2 q Hq) as [->| ->]; apply (away_pts _ _ _ _ _ _ X2 D1); unfold away; lra. }
  { apply xk_fragments; auto; [apply D1|apply D2]. }
  { apply (seg_vecs_parallel s1 s2 xaxis); auto; [apply D1|apply D2]. }
  { intros q. apply (no_touch _ _ _ _ _ _ _ _ _ X2 X1); auto; lra. }
  rewrite E. cbn [obind]. destruct kind as [->|[s ->]]; [reflexivity|]. exfalso.
  destruct D as [_ D]. assert (HB : both (seg_pts s1) (seg_pts s2) (s_src s)) by (apply D, (seg_end_on s), is_src).
  destruct HB as [B1 B2]. apply X1 in B2 as (t & Et & Ht). rewrite Et in B1. unfold seg_pts in B1. apply (proj2 D1) in B1.
  apply (on_x_at _ _ _ t X2) in B1. lra.
Qed.

(** ** segments of the x axis *)
Definition xs (a b : R) : segment R := mkSeg (ox a) (ox b).
Lemma xs_boxed a b : -1000 <= a <= 1000 -> -1000 <= b <= 1000 -> seg_boxed xk (xs a b).
Proof.
  intros Ha Hb x Hx. unfold seg_pts, xs in Hx. cbn [s_src s_tgt] in Hx. apply ox_on in Hx as (t & -> & Ht).
  unfold in_box. cbn. lra.
Qed.
Lemma xs_pts a b : a < b -> on_x (seg_pts (xs a b)) a b.
Proof.
  intros H x. unfold seg_pts, xs. cbn [s_src s_tgt]. rewrite ox_on. split; intros (t & -> & Ht); exists t; (split; [reflexivity|]); lra.
Qed.
Lemma xs_nondeg a b : a < b -> nondeg (xs a b).
Proof. intros H E. apply ox_inj in E. lra. Qed.
Lemma xs_clear a b c d eps : a < b -> c < d -> away c d a eps -> away c d b eps -> away a b c eps -> away a b d eps ->
  clear (xs a b) (xs c d) eps.
Proof.
  intros Hab Hcd A1 A2 A3 A4. pose proof (xs_pts a b Hab) as X1. pose proof (xs_pts c d Hcd) as X2.
  pose proof (on_x_seg _ _ _ X1 Hab) as S1. pose proof (on_x_seg _ _ _ X2 Hcd) as S2.
  split; intros p [->| ->]; cbn [s_src s_tgt xs].
  - apply (away_pts _ _ _ _ _ _ X2 S2), A1.
  - apply (away_pts _ _ _ _ _ _ X2 S2), A2.
  - apply (away_pts _ _ _ _ _ _ X1 S1), A3.
  - apply (away_pts _ _ _ _ _ _ X1 S1), A4.
Qed.
Lemma xs_parallel a b c d : a < b -> c < d -> parallel (seg_vec (xs a b)) (seg_vec (xs c d)).
Proof.
  intros H1 H2. exists ((d - c) / (b - a)). split.
  - intros E. apply Rmult_integral in E as [E|E]; [lra|]. apply Rinv_neq_0_compat in E; [exact E|lra].
  - unfold seg_vec, xs, ox. cbn. pq; field; lra.
Qed.
Lemma xs_on_axis a b x : seg_pts (xs a b) x -> line_pts xaxis x.
Proof. unfold seg_pts, xs. cbn [s_src s_tgt]. rewrite ox_on, xaxis_pts. intros (t & -> & _). eauto. Qed.
Lemma xs_fragments a b c d tol : a < b -> c < d -> fragments (xs a b) (xs c d) (k_fragment xk (xs a b) (xs c d) tol).
Proof. intros H1 H2. apply xk_fragments; auto using xs_nondeg; intros x; apply xs_on_axis. Qed.
Lemma xs_overlap : (forall p, ~ touch_at (xs 0 2) (xs 1 3) p).
Proof.
  intros p. pose proof (xs_pts 0 2 ltac:(lra)) as X1. pose proof (xs_pts 1 3 ltac:(lra)) as X2.
  apply (no_touch _ _ _ _ _ _ _ _ _ X1 X2); try lra; apply on_x_seg; auto; lra.
Qed.
Lemma xs_touch : touch_at (xs 0 1) (xs 1 3) (ox 1).
Proof.
  split; [apply xs_parallel; lra|]. intros x. unfold both. rewrite (xs_pts 0 1 ltac:(lra) x), (xs_pts 1 3 ltac:(lra) x). split.
  - intros [(t & -> & Ht) (u & E & Hu)]. apply ox_inj in E. apply ox_inj. lra.
  - intros ->. split; exists 1; split; auto; lra.
Qed.
