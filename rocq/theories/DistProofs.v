(** Proofs about distances and boundaries. *)

From Coq Require Import Reals Lra Lia Psatz List Bool.
From Coquelicot Require Import Coquelicot.
From Verif Require Import Base NumModel VecModel LinModel RoundModel PolyModel DistModel GeoSpec LinSpec
  PolySpec DistSpec GeoLemmas LinProofs PolyProofs PolyBridge QuadProofs PolyExamples.
Import ListNotations.
Local Open Scope R_scope.

Lemma nmin_Rmin (a b : R) : nmin a b = Rmin a b.
Proof.
  unfold nmin. rn. unfold Rmin. destruct (Rltb b a) eqn:E.
  - apply Rltb_true in E. destruct (Rle_dec a b); lra.
  - apply Rltb_false in E. destruct (Rle_dec a b); lra.
Qed.

Lemma confusion_R : @confusion R _ = 1 / 10000000.
Proof. reflexivity. Qed.

Lemma dist_points_eq (p q : pt) : dist_points p q = dist p q.
Proof. unfold dist_points. rewrite vlen_norm, vec_to_psub, dist_sym. reflexivity. Qed.

Lemma dist_line_ok p (l : line R) : unit3 (l_dir l) -> dist_to (on_line (l_sup l) (l_dir l)) p (dist_line p l).
Proof.
  intros Hu. unfold dist_line. rewrite vlen_norm, vec_to_psub.
  destruct (line_proj_closest l p Hu) as [H1 H2].
  change (norm (psub (line_proj l p) p)) with (dist (line_proj l p) p). rewrite dist_sym.
  split; [exists (line_proj l p); auto|exact H2].
Qed.

Lemma seg_len_eq (s : segment R) : seg_len s = dist (s_src s) (s_tgt s).
Proof. unfold seg_len. rewrite vlen_norm, vec_to_psub. apply dist_sym. Qed.

Lemma dist_to_unique S p d1 d2 : dist_to S p d1 -> dist_to S p d2 -> d1 = d2.
Proof.
  intros [(y & Hy & <-) M1] [(z & Hz & <-) M2]. pose proof (M1 _ Hz). pose proof (M2 _ Hy). lra.
Qed.

Lemma sqrt_add_le (h x : R) : 0 <= h -> sqrt (h + x * x) <= sqrt h + Rabs x.
Proof.
  intros Hh. pose proof (sqrt_pos h). pose proof (Rabs_pos x).
  rewrite <- (sqrt_square (sqrt h + Rabs x)) by lra. apply sqrt_le_1_alt.
  pose proof (sqrt_sqrt h Hh). assert (Rabs x * Rabs x = x * x) by (rewrite <- Rabs_mult; apply Rabs_pos_eq; nra). nra.
Qed.

Lemma dot_on_line (u s : pt) t : unit3 u -> dot u (psub (padd s (pscale t u)) s) = t.
Proof.
  unfold unit3. intros Hu. transitivity (t * dot u u); [|rewrite Hu; ring]. clear Hu.
  destruct u as [a b c], s as [x y z]. coords. ring.
Qed.
Lemma dist_on_line (u s : pt) t r : unit3 u ->
  dist (padd s (pscale t u)) (padd s (pscale r u)) = Rabs (r - t).
Proof.
  unfold unit3. intros Hu. unfold dist, norm. rewrite <- (sqrt_Rsqr_abs (r - t)). f_equal.
  transitivity ((r - t) * (r - t) * dot u u); [|rewrite Hu; unfold Rsqr; ring]. clear Hu.
  destruct u as [a b c], s as [x y z]. coords. ring.
Qed.

Section Seg.
Variables (s : segment R) (p : pt).
Hypothesis Hne : s_src s <> s_tgt s.
Let L := norm (psub (s_tgt s) (s_src s)).
Let u := seg_dir s.
Let tau := dot u (psub p (s_src s)).
Let q := line_proj (seg_line s) p.
Let h := dot (psub p q) (psub p q).
Let cl := clamp s p.

Lemma q_tau : dot u (psub q (s_src s)) = tau.
Proof.
  unfold q. rewrite (sd_q s p). fold tau u. pose proof (sd_u s Hne) as Hu. fold u in Hu.
  apply dot_on_line, Hu.
Qed.
Lemma q_proj : line_proj (seg_line s) q = q.
Proof. rewrite line_proj_eq. cbn [seg_line l_sup l_dir]. fold u. rewrite q_tau. unfold q. rewrite (sd_q s p). reflexivity. Qed.
Lemma q_contained : seg_contains_default s q true = true <->
  (0 <= tau < L \/ Rabs tau < L / 10000000 \/ Rabs (L - tau) < L / 10000000).
Proof.
  unfold seg_contains_default. pose proof (sd_L s Hne) as HL. fold L in HL.
  rewrite seg_len_eq, dist_sym, confusion_R. unfold dist. fold L. rn.
  rewrite (seg_contains_1d s q Hne) by lra.
  fold L. replace (seg_dir s) with u by reflexivity. rewrite q_tau, q_proj.
  replace (dot (psub q q) (psub q q)) with 0 by (destruct q; coords; ring).
  set (e := 1 / 10000000 * L). assert (He : 0 < e) by (unfold e; lra). replace (L / 10000000) with e by (unfold e; lra).
  rewrite !Rplus_0_l.
  assert (Ha : forall x, x * x < e * e <-> Rabs x < e).
  { intros x. rewrite <- (sq_lt_iff (Rabs x) e) by (try apply Rabs_pos; lra).
    rewrite <- Rabs_mult, (Rabs_pos_eq (x * x)) by nra. reflexivity. }
  rewrite <- !Ha. split; [intros [_ X]; exact X|intros X; split; [intros _; nra|exact X]].
Qed.

Lemma res_eq : dist_segment p s = if seg_contains_default s q true then sqrt h
  else Rmin (sqrt (h + tau * tau)) (sqrt (h + (L - tau) * (L - tau))).
Proof.
  unfold dist_segment. fold q. rewrite nmin_Rmin, !vlen_norm, !vec_to_psub.
  assert (E0 : norm (psub q p) = sqrt h).
  { unfold norm, h. f_equal. destruct p, q. coords. ring. }
  rewrite E0. assert (E1 : norm (psub (s_src s) p) = sqrt (h + tau * tau)).
  { unfold norm. f_equal. pose proof (sd_dist s p Hne 0) as E. fold q h u tau in E.
    replace (padd (s_src s) (pscale 0 u)) with (s_src s) in E
      by (destruct (s_src s); unfold padd, pscale; cbn; f_equal; ring).
    replace (dot (psub (s_src s) p) (psub (s_src s) p)) with (dot (psub p (s_src s)) (psub p (s_src s)))
      by (clear; destruct (s_src s), p; coords; ring).
    rewrite E. ring. }
  assert (E2 : norm (psub (s_tgt s) p) = sqrt (h + (L - tau) * (L - tau))).
  { unfold norm. f_equal. pose proof (sd_dist s p Hne L) as E. fold q h u tau in E.
    pose proof (sd_tgt s Hne) as Et. fold L u in Et. rewrite <- Et in E.
    replace (dot (psub (s_tgt s) p) (psub (s_tgt s) p)) with (dot (psub p (s_tgt s)) (psub p (s_tgt s)))
      by (clear; destruct (s_tgt s), p; coords; ring).
    exact E. }
  rewrite E1, E2. reflexivity.
Qed.

Lemma cl_cases : (tau < 0 /\ cl = 0) \/ (0 <= tau <= L /\ cl = tau) \/ (L < tau /\ cl = L).
Proof.
  unfold cl, clamp. fold L u tau. pose proof (sd_L s Hne) as HL. fold L in HL.
  unfold Rmax, Rmin. destruct (Rle_dec L tau), (Rle_dec 0 _); lra.
Qed.

Lemma dist_segment_bounds d : dist_to (on_segment (s_src s) (s_tgt s)) p d ->
  dist_segment p s <= d <= dist_segment p s + dist (s_src s) (s_tgt s) / 10000000.
Proof.
  intros Hd. rewrite (dist_to_unique _ _ _ _ Hd (seg_dist_val s p Hne)).
  fold L u tau q h cl. rewrite res_eq. rewrite (dist_sym (s_src s)). change (dist (s_tgt s) (s_src s)) with L.
  pose proof (sd_L s Hne) as HL. fold L in HL. pose proof (sd_h s p) as Hh. fold q h in Hh.
  pose proof q_contained as Hq. pose proof cl_cases as Hc.
  destruct (seg_contains_default s q true).
  - destruct Hq as [Hq _]. specialize (Hq eq_refl). split.
    + apply sqrt_le_1_alt. nra.
    + eapply Rle_trans; [apply sqrt_add_le, Hh|]. apply Rplus_le_compat_l.
      apply Rabs_le. destruct Hc as [[H1 ->]|[[H1 ->]|[H1 ->]]]; [|lra|].
      * destruct Hq as [?|[Hq|Hq]]; [lra|apply Rabs_def2 in Hq; lra|apply Rabs_def2 in Hq; lra].
      * destruct Hq as [?|[Hq|Hq]]; [lra|apply Rabs_def2 in Hq; lra|apply Rabs_def2 in Hq; lra].
  - assert (Hn : ~ (0 <= tau < L \/ Rabs tau < L / 10000000 \/ Rabs (L - tau) < L / 10000000)).
    { intros X. apply Hq in X. discriminate. }
    assert (Ht : tau < 0 \/ L < tau).
    { destruct (Rlt_le_dec tau 0); [auto|]. destruct (Rlt_le_dec tau L); [exfalso; apply Hn; lra|].
      right. destruct (Rle_lt_or_eq_dec _ _ r0); [assumption|]. exfalso. apply Hn. right. right.
      apply Rabs_def1; lra. }
    assert (E : sqrt (h + (cl - tau) * (cl - tau)) = Rmin (sqrt (h + tau * tau)) (sqrt (h + (L - tau) * (L - tau)))).
    { destruct Hc as [[H1 ->]|[[H1 ->]|[H1 ->]]]; [|lra|].
      - rewrite Rmin_left; [f_equal; ring|]. apply sqrt_le_1_alt. nra.
      - rewrite Rmin_right; [reflexivity|]. apply sqrt_le_1_alt. nra. }
    rewrite E. lra.
Qed.

Lemma dist_segment_exact d : dist_to (on_segment (s_src s) (s_tgt s)) p d ->
  (forall x, closest (on_line (s_src s) (psub (s_tgt s) (s_src s))) p x ->
     on_segment (s_src s) (s_tgt s) x \/
     forall y, on_segment (s_src s) (s_tgt s) y -> dist (s_src s) (s_tgt s) / 10000000 <= dist x y) ->
  dist_segment p s = d.
Proof.
  intros Hd Hx. rewrite (dist_to_unique _ _ _ _ Hd (seg_dist_val s p Hne)).
  fold L u tau q h cl. rewrite res_eq.
  pose proof (sd_L s Hne) as HL. fold L in HL. pose proof (sd_h s p) as Hh. fold q h in Hh.
  pose proof (sd_u s Hne) as Hu. fold u in Hu.
  assert (EL : dist (s_src s) (s_tgt s) = L) by apply dist_sym.
  assert (Huv : psub (s_tgt s) (s_src s) = pscale L u).
  { rewrite (sd_tgt s Hne). fold L u. clearbody L u. clear. destruct (s_src s), u. coords. v3; ring. }
  specialize (Hx q). destruct Hx as [Hx|Hx].
  { rewrite Huv. pose proof (line_proj_closest (seg_line s) p (sd_u s Hne)) as [[t Ht] H2]. fold q in Ht, H2. split.
    - exists (t / L). rewrite Ht. cbn [seg_line l_sup l_dir]. fold u. clearbody L u. clear -HL.
      destruct (s_src s), u. coords. v3; field; lra.
    - intros z [t' ->]. apply H2. exists (t' * L). cbn [seg_line l_sup l_dir]. fold u. clearbody L u. clear.
      destruct (s_src s), u. coords. v3; ring. }
  - apply (sd_on s Hne) in Hx. fold L u in Hx. destruct Hx as (r & Hr & Eq).
    assert (Et : tau = r).
    { rewrite <- q_tau, Eq. apply dot_on_line, Hu. }
    assert (Hc : cl = tau) by (pose proof cl_cases; lra).
    assert (Hq : seg_contains_default s q true = true).
    { apply q_contained. destruct (Rlt_le_dec tau L); [lra|]. right. right. apply Rabs_def1; lra. }
    rewrite Hq, Hc. f_equal. ring.
  - rewrite EL in Hx.
    assert (Hcl := Hx (padd (s_src s) (pscale cl u))).
    assert (Hrange := clamp_range s p Hne). fold L cl in Hrange.
    assert (E : dist q (padd (s_src s) (pscale cl u)) = Rabs (cl - tau)).
    { unfold q. rewrite (sd_q s p). fold tau u. apply dist_on_line, Hu. }
    rewrite E in Hcl. specialize (Hcl ltac:(apply (sd_on s Hne); exists cl; auto)).
    assert (Hq : seg_contains_default s q true = false).
    { destruct (seg_contains_default s q true) eqn:Eq; [|reflexivity]. apply q_contained in Eq.
      pose proof cl_cases as Hc. exfalso.
      destruct Hc as [[H1 Hc]|[[H1 Hc]|[H1 Hc]]]; rewrite Hc in Hcl.
      - rewrite Rabs_pos_eq in Hcl by lra.
        destruct Eq as [?|[Eq|Eq]]; [lra|apply Rabs_def2 in Eq; lra|apply Rabs_def2 in Eq; lra].
      - rewrite Rminus_eq_0, Rabs_R0 in Hcl. lra.
      - rewrite Rabs_left in Hcl by lra.
        destruct Eq as [?|[Eq|Eq]]; [lra|apply Rabs_def2 in Eq; lra|apply Rabs_def2 in Eq; lra]. }
    rewrite Hq. destruct cl_cases as [[H1 Hc]|[[H1 Hc]|[H1 Hc]]]; rewrite Hc.
    + rewrite Rmin_left; [f_equal; ring|]. apply sqrt_le_1_alt. nra.
    + rewrite Hc, Rminus_eq_0, Rabs_R0 in Hcl. lra.
    + rewrite Rmin_right; [reflexivity|]. apply sqrt_le_1_alt. nra.
Qed.
End Seg.

Lemma dist_segment_zero (s : segment R) p : s_src s <> s_tgt s -> on_segment (s_src s) (s_tgt s) p -> dist_segment p s = 0.
Proof.
  intros Hne Hp. assert (D : dist_to (on_segment (s_src s) (s_tgt s)) p 0).
  { split; [exists p; split; [exact Hp|apply dist_self]|intros; apply dist_nonneg]. }
  apply (dist_segment_exact s p Hne 0 D). intros x [Hx Hm]. left.
  assert (E : dist p x = 0).
  { assert (on_line (s_src s) (psub (s_tgt s) (s_src s)) p).
    { destruct Hp as (t & _ & ->). exists t. destruct (s_src s), (s_tgt s). coords. v3; ring. }
    specialize (Hm p H). rewrite dist_self in Hm. pose proof (dist_nonneg p x). lra. }
  apply dist_zero in E. subst x. exact Hp.
Qed.

(** *** Minima *)
Lemma fold_min_le (l : list R) (m : R) : fold_left Rmin l m <= m /\ forall x, In x l -> fold_left Rmin l m <= x.
Proof.
  revert m. induction l as [|a l IH]; intros m; cbn [fold_left].
  - split; [lra|intros x []].
  - destruct (IH (Rmin m a)) as [H1 H2]. pose proof (Rmin_l m a). pose proof (Rmin_r m a).
    split; [lra|]. intros x [<-|Hx]; [lra|apply H2, Hx].
Qed.
Lemma fold_min_in (l : list R) (m : R) : fold_left Rmin l m = m \/ In (fold_left Rmin l m) l.
Proof.
  revert m. induction l as [|a l IH]; intros m; cbn [fold_left]; [auto|].
  destruct (IH (Rmin m a)) as [E|Hi]; [|auto with datatypes].
  rewrite E. unfold Rmin. destruct (Rle_dec m a); [auto|]. right. left. reflexivity.
Qed.
Lemma dist_list_fold {G} top (f : G -> R) gs : dist_list top f gs = fold_left Rmin (map f gs) top.
Proof.
  unfold dist_list. revert top. induction gs as [|g gs IH]; intros top; [reflexivity|].
  cbn [fold_left map]. rewrite nmin_Rmin. apply IH.
Qed.
Lemma fold_min_exact l top : l <> [] -> (exists x, In x l /\ x <= top) -> is_min (fold_left Rmin l top) l.
Proof.
  intros Hn (x & Hx & Ht). destruct (fold_min_le l top) as [H1 H2]. split; [|exact H2].
  destruct (fold_min_in l top) as [E|]; [|assumption]. rewrite E in H2 |- *.
  pose proof (H2 x Hx). replace top with x by lra. exact Hx.
Qed.
Lemma dist_list_min {G} top (f : G -> R) gs : (exists g, In g gs /\ f g <= top) ->
  is_min (dist_list top f gs) (map f gs).
Proof.
  intros (g & Hg & Hf). rewrite dist_list_fold. apply fold_min_exact.
  - intros E. apply map_eq_nil in E. subst. destruct Hg.
  - exists (f g). split; [apply in_map, Hg|exact Hf].
Qed.
Lemma dist_list_empty {G} top (f : G -> R) : dist_list top f [] = top.
Proof. reflexivity. Qed.

(** *** Boundaries *)
Lemma fold_ok {B C} (F : R -> R -> R) (g : B -> outcome C) (h : C -> R) l es m :
  map g l = map Ok es ->
  fold_left (fun m i => obind m (fun m => obind (g i) (fun e => Ok (F m (h e))))) l (Ok m)
  = Ok (fold_left F (map h es) m).
Proof.
  revert es m. induction l as [|i l IH]; intros es m E; destruct es as [|e es]; cbn in E; try discriminate; [reflexivity|].
  injection E as E1 E2. cbn [fold_left]. rewrite E1. cbn [obind]. cbn [map fold_left]. apply (IH es _ E2).
Qed.
Lemma fold_or {B} (g : B -> outcome (segment R)) (h : segment R -> bool) l es (m : bool) :
  map g l = map Ok es ->
  fold_left (fun r i => obind r (fun r : bool => if r then Ok true else obind (g i) (fun e => Ok (h e)))) l (Ok m)
  = Ok (m || existsb h es).
Proof.
  revert es m. induction l as [|i l IH]; intros es m E; destruct es as [|e es]; cbn in E; try discriminate.
  - cbn. rewrite orb_false_r. reflexivity.
  - injection E as E1 E2. cbn [fold_left]. rewrite E1. cbn [obind existsb].
    destruct m; [rewrite (IH es true E2); reflexivity|]. rewrite (IH es (h e) E2). reflexivity.
Qed.

Definition segs (cs : list pt) : list (segment R) := map (fun ab => mkSeg (fst ab) (snd ab)) (edges cs).
Definition quad_segs (p0 p1 p2 p3 : pt) : list (segment R) := [mkSeg p0 p1; mkSeg p1 p3; mkSeg p0 p2; mkSeg p2 p3].
Definition seg_set (es : list (segment R)) (x : pt) : Prop := exists e, In e es /\ on_segment (s_src e) (s_tgt e) x.

Section Bd.
Variables (es : list (segment R)) (p : pt) (M : R).
Hypothesis Hp : forall e, In e es -> s_src e <> s_tgt e.
Hypothesis HM : forall e, In e es -> dist (s_src e) (s_tgt e) <= M.
Let ds := map (dist_segment p) es.

Lemma bd_each e : In e es -> exists d, dist_to (on_segment (s_src e) (s_tgt e)) p d /\
  dist_segment p e <= d <= dist_segment p e + M / 10000000.
Proof.
  intros He. destruct (seg_dist_exists e p (Hp e He)) as [d Hd]. exists d. split; [exact Hd|].
  pose proof (dist_segment_bounds e p (Hp e He) d Hd). pose proof (HM e He). lra.
Qed.
Lemma bd_min top d : dist_to (seg_set es) p d -> d <= top ->
  fold_left Rmin ds top <= d <= fold_left Rmin ds top + M / 10000000.
Proof.
  intros [(y & (e & He & Hy) & Ed) Hm] Ht. destruct (fold_min_le ds top) as [H1 H2]. split.
  - destruct (bd_each e He) as (d' & [_ Hm'] & Hb). specialize (Hm' y Hy). rewrite Ed in Hm'.
    specialize (H2 (dist_segment p e) (in_map _ _ _ He)). lra.
  - assert (HM0 : 0 <= M).
    { pose proof (HM e He). pose proof (dist_nonneg (s_src e) (s_tgt e)). lra. }
    destruct (fold_min_in ds top) as [->|Hi]; [lra|]. apply in_map_iff in Hi as (e' & <- & He').
    destruct (bd_each e' He') as (d' & [(y' & Hy' & E') _] & Hb).
    assert (d <= d'); [|lra]. rewrite <- E'. apply Hm. exists e'. auto.
Qed.
Lemma bd_zero top : 0 <= top -> seg_set es p -> fold_left Rmin ds top = 0.
Proof.
  intros Ht (e & He & Hy). destruct (fold_min_le ds top) as [H1 H2].
  pose proof (H2 _ (in_map _ _ _ He)) as H3. rewrite (dist_segment_zero e p (Hp e He) Hy) in H3.
  assert (0 <= fold_left Rmin ds top); [|lra].
  destruct (fold_min_in ds top) as [->|Hi]; [lra|]. apply in_map_iff in Hi as (e' & <- & He').
  unfold dist_segment. rewrite !vlen_norm, nmin_Rmin.
  destruct (seg_contains_default e' _ true); [apply norm_nonneg|]. apply Rmin_glb; apply norm_nonneg.
Qed.
Lemma bd_exists : es <> [] -> exists d, dist_to (seg_set es) p d.
Proof.
  intros Hn. clear ds HM. induction es as [|e l IH]; [congruence|].
  destruct (seg_dist_exists e p (Hp e (or_introl eq_refl))) as [d1 [(y1 & Hy1 & E1) M1]].
  destruct l as [|e2 l].
  - exists d1. split; [exists y1; split; [exists e; cbn; auto|exact E1]|].
    intros y (e' & [<-|[]] & Hy). apply M1, Hy.
  - destruct IH as [d2 [(y2 & (e' & He' & Hy2) & E2) M2]]; [intros; apply Hp; right; assumption|congruence|].
    destruct (Rle_lt_dec d1 d2).
    + exists d1. split; [exists y1; split; [exists e; cbn; auto|exact E1]|].
      intros y (e'' & [<-|Hi] & Hy); [apply M1, Hy|]. apply Rle_trans with d2; [assumption|]. apply M2. exists e''. auto.
    + exists d2. split; [exists y2; split; [exists e'; cbn; auto|exact E2]|].
      intros y (e'' & [<-|Hi] & Hy); [specialize (M1 _ Hy); lra|]. apply M2. exists e''. auto.
Qed.
Lemma bd_on eps d : dist_to (seg_set es) p d ->
  let r := existsb (fun e => point_on_segment p e eps) es in
  (d < eps -> r = true) /\ (r = true -> d < eps + M / 10000000).
Proof.
  intros [(y & (e & He & Hy) & Ed) Hm]. cbn zeta. split.
  - intros Hd. apply existsb_exists. exists e. split; [exact He|]. unfold point_on_segment. rn. apply Rltb_true.
    destruct (bd_each e He) as (d' & [_ Hm'] & Hb). specialize (Hm' y Hy). lra.
  - intros Hr. apply existsb_exists in Hr as (e' & He' & Hr). unfold point_on_segment in Hr. rn. apply Rltb_true in Hr.
    destruct (bd_each e' He') as (d' & [(y' & Hy' & E') _] & Hb).
    assert (d <= d'); [|lra]. rewrite <- E'. apply Hm. exists e'. auto.
Qed.
End Bd.

Lemma fold_nmin_ext {B C} (g : B -> outcome C) (h : C -> R) l m :
  fold_left (fun m i => obind m (fun m => obind (g i) (fun e => Ok (nmin m (h e))))) l m
  = fold_left (fun m i => obind m (fun m => obind (g i) (fun e => Ok (Rmin m (h e))))) l m.
Proof.
  revert m. induction l as [|i l IH]; intros m; [reflexivity|]. cbn [fold_left].
  replace (obind m (fun m0 => obind (g i) (fun e => Ok (nmin m0 (h e)))))
     with (obind m (fun m0 => obind (g i) (fun e => Ok (Rmin m0 (h e))))); [apply IH|].
  destruct m; [|reflexivity..]. cbn [obind]. destruct (g i); [|reflexivity..]. cbn [obind]. rewrite nmin_Rmin. reflexivity.
Qed.

Section PolyBd.
Variables (cs : list pt) (pg : poly R).
Hypothesis E : make_poly cs = Ok pg.
Lemma pg_edges : map (poly_edge pg) (seq 0 (length (po_cs pg))) = map Ok (segs cs).
Proof.
  assert (po_cs pg = cs) as ->.
  { unfold make_poly in E. destruct (Nat.ltb (length cs) 3); [discriminate|]. injection E as <-. reflexivity. }
  rewrite (proj1 (poly_edges cs pg E)). unfold segs. rewrite map_map. reflexivity.
Qed.
Lemma poly_bd_eq top p : dist_poly_boundary top p pg = Ok (fold_left Rmin (map (dist_segment p) (segs cs)) top).
Proof.
  unfold dist_poly_boundary. rewrite fold_nmin_ext. apply (fold_ok Rmin (poly_edge pg) (dist_segment p) _ _ _ pg_edges).
Qed.
Lemma poly_on_eq p eps : on_poly_boundary p pg eps = Ok (existsb (fun e => point_on_segment p e eps) (segs cs)).
Proof. unfold on_poly_boundary. apply (fold_or (poly_edge pg) (fun e => point_on_segment p e eps) _ _ false pg_edges). Qed.
End PolyBd.
Lemma quad_bd_eq top p p0 p1 p2 p3 : dist_quad_boundary top p (make_quad p0 p1 p2 p3)
  = Ok (fold_left Rmin (map (dist_segment p) (quad_segs p0 p1 p2 p3)) top).
Proof. unfold dist_quad_boundary. rewrite fold_nmin_ext. apply (fold_ok Rmin (quad_edge _) (dist_segment p)). reflexivity. Qed.
Lemma quad_on_eq p p0 p1 p2 p3 eps : on_quad_boundary p (make_quad p0 p1 p2 p3) eps
  = Ok (existsb (fun e => point_on_segment p e eps) (quad_segs p0 p1 p2 p3)).
Proof. unfold on_quad_boundary. exact (fold_or (quad_edge (make_quad p0 p1 p2 p3)) (fun e => point_on_segment p e eps) (seq 0 4) (quad_segs p0 p1 p2 p3) false eq_refl). Qed.

Lemma dist_to_ext (S T : pt -> Prop) p d : (forall x, S x <-> T x) -> dist_to S p d -> dist_to T p d.
Proof.
  intros H [(y & Hy & Ed) M]. split; [exists y; split; [apply H, Hy|exact Ed]|]. intros z Hz. apply M, H, Hz.
Qed.
Lemma segs_set cs x : seg_set (segs cs) x <-> boundary cs x.
Proof.
  unfold seg_set, segs, boundary. split.
  - intros (e & He & Hx). apply in_map_iff in He as (ab & <- & Hab). exists ab. auto.
  - intros (ab & Hab & Hx). eexists. split; [apply in_map_iff; exists ab; split; [reflexivity|exact Hab]|exact Hx].
Qed.
Lemma quad_segs_set p0 p1 p2 p3 x : seg_set (quad_segs p0 p1 p2 p3) x <-> boundary (around p0 p1 p2 p3) x.
Proof.
  unfold boundary, around. rewrite edges4. unfold seg_set, quad_segs. split.
  - intros (e & [<-|[<-|[<-|[<-|[]]]]] & Hx); cbn [s_src s_tgt] in Hx.
    + exists (p0, p1). cbn; auto.
    + exists (p1, p3). cbn; auto.
    + exists (p2, p0). apply on_segment_sym in Hx. cbn; auto.
    + exists (p3, p2). apply on_segment_sym in Hx. cbn; auto 6.
  - intros (ab & [<-|[<-|[<-|[<-|[]]]]] & Hx); cbn [fst snd] in Hx.
    + exists (mkSeg p0 p2). apply on_segment_sym in Hx. cbn; auto.
    + exists (mkSeg p0 p1). cbn; auto.
    + exists (mkSeg p1 p3). cbn; auto.
    + exists (mkSeg p2 p3). apply on_segment_sym in Hx. cbn; auto 6.
Qed.
Lemma segs_prop (P : pt -> pt -> Prop) cs : (forall ab, In ab (edges cs) -> P (fst ab) (snd ab)) ->
  forall e, In e (segs cs) -> P (s_src e) (s_tgt e).
Proof. intros H e He. apply in_map_iff in He as (ab & <- & Hab). apply H, Hab. Qed.
Lemma quad_segs_prop (P : pt -> pt -> Prop) p0 p1 p2 p3 : (forall a b, P a b -> P b a) ->
  (forall ab, In ab (edges (around p0 p1 p2 p3)) -> P (fst ab) (snd ab)) ->
  forall e, In e (quad_segs p0 p1 p2 p3) -> P (s_src e) (s_tgt e).
Proof.
  unfold around. rewrite edges4. intros Hs H e [<-|[<-|[<-|[<-|[]]]]]; cbn [s_src s_tgt].
  - apply (H (p0, p1)). cbn; auto.
  - apply (H (p1, p3)). cbn; auto.
  - apply Hs, (H (p2, p0)). cbn; auto.
  - apply Hs, (H (p3, p2)). cbn; auto 6.
Qed.

(** packaged *)
Lemma poly_boundary_dist cs pg p top M d : make_poly cs = Ok pg -> proper_edges cs -> edges_below M cs ->
  dist_to (boundary cs) p d -> d <= top ->
  exists m, dist_poly_boundary top p pg = Ok m /\ m <= d <= m + M / 10000000.
Proof.
  intros E HP HM Hd Ht. eexists. split; [apply (poly_bd_eq cs pg E)|].
  apply bd_min; [exact (segs_prop (fun a b => a <> b) cs HP)|exact (segs_prop (fun a b => dist a b <= M) cs HM)| |exact Ht].
  apply (dist_to_ext (boundary cs)); [intros; symmetry; apply segs_set|exact Hd].
Qed.
Lemma quad_boundary_dist p0 p1 p2 p3 p top M d : proper_edges (around p0 p1 p2 p3) -> edges_below M (around p0 p1 p2 p3) ->
  dist_to (boundary (around p0 p1 p2 p3)) p d -> d <= top ->
  exists m, dist_quad_boundary top p (make_quad p0 p1 p2 p3) = Ok m /\ m <= d <= m + M / 10000000.
Proof.
  intros HP HM Hd Ht. eexists. split; [apply quad_bd_eq|].
  apply bd_min; [apply (quad_segs_prop (fun a b => a <> b)); [intros ? ? X Y; apply X; auto|exact HP]
    |apply (quad_segs_prop (fun a b => dist a b <= M)); [intros; rewrite dist_sym; assumption|exact HM]| |exact Ht].
  apply (dist_to_ext (boundary (around p0 p1 p2 p3))); [intros; symmetry; apply quad_segs_set|exact Hd].
Qed.
Lemma poly_boundary_zero cs pg p top : make_poly cs = Ok pg -> proper_edges cs -> 0 <= top -> boundary cs p ->
  dist_poly_boundary top p pg = Ok 0.
Proof.
  intros E HP Ht Hb. rewrite (poly_bd_eq cs pg E). f_equal. apply bd_zero; [exact (segs_prop (fun a b => a <> b) cs HP)|exact Ht|apply segs_set, Hb].
Qed.
Lemma quad_boundary_zero p0 p1 p2 p3 p top : proper_edges (around p0 p1 p2 p3) -> 0 <= top ->
  boundary (around p0 p1 p2 p3) p -> dist_quad_boundary top p (make_quad p0 p1 p2 p3) = Ok 0.
Proof.
  intros HP Ht Hb. rewrite quad_bd_eq. f_equal.
  apply bd_zero; [apply (quad_segs_prop (fun a b => a <> b)); [intros ? ? X Y; apply X; auto|exact HP]|exact Ht|apply quad_segs_set, Hb].
Qed.
Lemma boundary_dist_exists cs p : (3 <= length cs)%nat -> proper_edges cs -> exists d, dist_to (boundary cs) p d.
Proof.
  intros HL HP. destruct (bd_exists (segs cs) p (segs_prop (fun a b => a <> b) cs HP)) as [d Hd].
  - unfold segs. intros X. apply map_eq_nil in X. pose proof (edges_length cs) as Y. rewrite X in Y. cbn in Y. lia.
  - exists d. apply (dist_to_ext (seg_set (segs cs))); [apply segs_set|exact Hd].
Qed.
Lemma poly_on_boundary cs pg p eps M d : make_poly cs = Ok pg -> proper_edges cs -> edges_below M cs ->
  dist_to (boundary cs) p d ->
  exists r, on_poly_boundary p pg eps = Ok r /\ (d < eps -> r = true) /\ (r = true -> d < eps + M / 10000000).
Proof.
  intros E HP HM Hd. eexists. split; [apply (poly_on_eq cs pg E)|].
  apply bd_on; [exact (segs_prop (fun a b => a <> b) cs HP)|exact (segs_prop (fun a b => dist a b <= M) cs HM)|].
  apply (dist_to_ext (boundary cs)); [intros; symmetry; apply segs_set|exact Hd].
Qed.
Lemma quad_on_boundary p0 p1 p2 p3 p eps M d : proper_edges (around p0 p1 p2 p3) -> edges_below M (around p0 p1 p2 p3) ->
  dist_to (boundary (around p0 p1 p2 p3)) p d ->
  exists r, on_quad_boundary p (make_quad p0 p1 p2 p3) eps = Ok r /\
    (d < eps -> r = true) /\ (r = true -> d < eps + M / 10000000).
Proof.
  intros HP HM Hd. eexists. split; [apply quad_on_eq|].
  apply bd_on; [apply (quad_segs_prop (fun a b => a <> b)); [intros ? ? X Y; apply X; auto|exact HP]
    |apply (quad_segs_prop (fun a b => dist a b <= M)); [intros; rewrite dist_sym; assumption|exact HM]|].
  apply (dist_to_ext (boundary (around p0 p1 p2 p3))); [intros; symmetry; apply quad_segs_set|exact Hd].
Qed.
Lemma union_dist (S T : pt -> Prop) p a b : dist_to S p a -> dist_to T p b ->
  dist_to (fun x => S x \/ T x) p (Rmin a b).
Proof.
  intros [(y & Hy & Ea) Ma] [(z & Hz & Eb) Mb]. unfold Rmin. destruct (Rle_dec a b).
  - split; [exists y; auto|]. intros x [Hx|Hx]; [apply Ma, Hx|]. specialize (Mb x Hx). lra.
  - split; [exists z; auto|]. intros x [Hx|Hx]; [|apply Mb, Hx]. specialize (Ma x Hx). lra.
Qed.
Lemma surf_boundary_dist (cd : pt -> ell R -> R) p (c : cyl R) (S : ell R -> pt -> Prop) :
  dist_to (S (c_bot c)) p (cd p (c_bot c)) -> dist_to (S (c_top c)) p (cd p (c_top c)) ->
  dist_to (fun x => S (c_bot c) x \/ S (c_top c) x) p (dist_surf_boundary cd p c).
Proof. intros H1 H2. unfold dist_surf_boundary. rewrite nmin_Rmin. apply union_dist; assumption. Qed.
