(** Proofs for C115: sampled polygons in double precision. *)

From Coq Require Import Nsatz ZArith Reals Lra Lia Psatz Bool List.
From Flocq Require Import Core.Core IEEE754.BinarySingleNaN IEEE754.PrimFloat.
From Coq Require Import Floats.
From Verif Require Import Base NumModel VecModel LinModel RoundModel PolyModel DistModel IntModel SampModel GeoSpec LinSpec PolySpec SampSpec DblSpec GeoLemmas
  DblLemmas DblProofs DblLen DblExamples DblEq LinDblSpec LinDblBase LinDblFoot LinDblProofs TrigDblSpec RndDblSpec RndDblProofs PtDblSpec FrDblProofs SdDblSpec SdDblProofs SdDblDisk SdDblFrame SpDblSpec.
Import ListNotations.
Local Open Scope R_scope.

Lemma scale_moderate c M : 1 <= c <= 1000 -> scale M -> moderate (c * M).
Proof.
  unfold scale, moderate. rewrite !two_p. intros Hc [A B]. pose proof (bpow_gt_0 radix2 (-300)) as P. split.
  - apply Rle_trans with (bpow radix2 (-300)); [apply bpow_le; lia|]. apply Rle_trans with M; [exact A|]. assert (0 <= (c - 1) * M) by (apply Rmult_le_pos; lra). lra.
  - apply Rle_trans with (bpow radix2 10 * bpow radix2 300); [|rewrite <- bpow_plus; apply bpow_le; lia]. change (bpow radix2 10) with 1024. apply Rmult_le_compat; lra.
Qed.
Lemma scale_sized M : scale M -> sized M.
Proof. intros H. apply moderate_sized, moderate_x. replace M with (1 * M) by ring. apply scale_moderate; [lra|exact H]. Qed.

(** ** The axis of a rotation up to 18 roundings *)
Lemma turn_axis (u u' v : pt) t : unit3 u -> unit3 u' -> norm (psub (turn u t v) (turn u' t v)) <= 5 * norm (psub u u') * norm v.
Proof.
  intros Hu Hu'. pose proof (COS_bound t) as C. pose proof (SIN_bound t) as S. apply norm_unit in Hu, Hu'.
  set (w := psub u u'). replace (psub (turn u t v) (turn u' t v)) with (padd (pscale (sin t) (cross w v)) (padd (pscale ((1 - cos t) * dot w v) u) (pscale ((1 - cos t) * dot u' v) w))).
  - pose proof (norm_nonneg w) as Nw. pose proof (norm_nonneg v) as Nv. assert (0 <= norm w * norm v) as P by (apply Rmult_le_pos; assumption).
    eapply Rle_trans; [apply norm_tri|]. eapply Rle_trans; [apply Rplus_le_compat_l, norm_tri|]. rewrite !norm_mul, !Rabs_mult, Hu, (Rabs_pos_eq (1 - cos t)) by lra.
    pose proof (norm_cross w v) as X. pose proof (cauchy_norm w v) as Y. pose proof (cauchy_norm u' v) as Z. rewrite Hu' in Z.
    assert (Rabs (sin t) * norm (cross w v) <= 1 * (norm w * norm v)) as A1 by (apply Rmult_le_compat; try apply Rabs_pos; try apply norm_nonneg; [apply Rabs_le; lra|exact X]).
    assert ((1 - cos t) * Rabs (dot w v) <= 2 * (norm w * norm v)) as A2 by (apply Rmult_le_compat; try apply Rabs_pos; lra).
    assert ((1 - cos t) * Rabs (dot u' v) * norm w <= 2 * (1 * norm v) * norm w) as A3 by (apply Rmult_le_compat_r; [exact Nw|]; apply Rmult_le_compat; try apply Rabs_pos; lra).
    lra.
  - unfold w, turn, cross. clear. destruct u as [u1 u2 u3], u' as [w1 w2 w3], v as [v1 v2 v3]. pts. cbn [nsub nmul R_num]. f_equal; ring.
Qed.
Lemma turn_sub (u a b : pt) t : psub (turn u t a) (turn u t b) = turn u t (psub a b).
Proof. unfold turn. destruct u as [u1 u2 u3], a as [a1 a2 a3], b as [b1 b2 b3]. pts. f_equal; ring. Qed.
Lemma turn_iso (u a b : pt) t : unit3 u -> norm (psub (turn u t a) (turn u t b)) = norm (psub a b).
Proof. intros H. rewrite turn_sub. unfold norm. f_equal. apply turn_norm. exact H. Qed.
Lemma pt_norm (v : V3 PrimFloat.float) M : within3 M v -> norm (val3 v) <= 1733 / 1000 * M.
Proof. intros (A & B & C). apply norm_le; cbn [vx vy vz val3]; assumption. Qed.
Lemma rotate_axis (T : Trig PrimFloat.float) d t u v M : accurate T -> direction d -> usual_angle t -> unit3 u -> norm (psub (val3 d) u) <= 16 * U -> moderate M -> point_upto M v ->
  number3 (rotate v d t) /\ norm (psub (val3 (rotate v d t)) (turn u (val t) (val3 v))) <= 760 * (U * M).
Proof.
  intros HT Hd Ht Hu Hdu HM Hv. pose proof U_pos as [U0 U1]. pose proof (sized_pos M (moderate_sized M (moderate_x M HM))) as M0.
  destruct (dir_norm d Hd) as (P & _ & K). destruct (unit_of (val3 d) P) as (A & B & _). set (w := pscale (/ norm (val3 d)) (val3 d)) in *.
  assert (norm (psub (val3 d) w) <= powerRZ 2 (-50)) as Hw by (rewrite B, (proj1 U_50); exact K).
  destruct (rotate_dbl T d t w HT Hd Ht A Hw v M HM Hv) as [N E]. split; [exact N|]. unfold dist in E.
  eapply Rle_trans; [apply (psub_tri _ (turn w (val t) (val3 v)))|]. pose proof (turn_axis w u (val3 v) (val t) A Hu) as X.
  assert (norm (psub w u) <= 24 * U) as D.
  { eapply Rle_trans; [apply (psub_tri _ (val3 d))|]. assert (norm (psub w (val3 d)) <= 8 * U); [|lra].
    replace (psub w (val3 d)) with (pscale (-1) (psub (val3 d) w)) by (clear; generalize (val3 d) w; intros [a b c] [a' b' c']; pts; f_equal; ring). rewrite norm_mul, Rabs_left by lra. rewrite B. lra. }
  pose proof (pt_norm v M (proj2 Hv)) as Nv. assert (5 * norm (psub w u) * norm (val3 v) <= 5 * (24 * U) * (1733 / 1000 * M)) as Y.
  { apply Rmult_le_compat; try apply norm_nonneg; try lra. pose proof (norm_nonneg (psub w u)). lra. }
  replace (powerRZ 2 (-44)) with (512 * U) in E by (rewrite two_p; change (bpow radix2 (-44)) with (/ 17592186044416); unfold U; lra).
  assert (0 < U * M) by (apply Rmult_lt_0_compat; lra). lra.
Qed.

(** ** Sums of vectors *)
Lemma vadd_err (a b : V3 PrimFloat.float) B : number3 a -> number3 b -> bpow radix2 (-1000) <= B -> B <= bpow radix2 1000 ->
  Rabs (val (vx a) + val (vx b)) <= B -> Rabs (val (vy a) + val (vy b)) <= B -> Rabs (val (vz a) + val (vz b)) <= B ->
  let r := vadd a b in number3 r /\ Rabs (val (vx r) - (val (vx a) + val (vx b))) <= U * B /\ Rabs (val (vy r) - (val (vy a) + val (vy b))) <= U * B /\ Rabs (val (vz r) - (val (vz a) + val (vz b))) <= U * B.
Proof.
  intros (A1 & A2 & A3) (B1 & B2 & B3) L H X Y Z. unfold vadd. cbn [vx vy vz nadd F_num].
  destruct (add_err _ _ B A1 B1 L H X) as [N1 E1]. destruct (add_err _ _ B A2 B2 L H Y) as [N2 E2]. destruct (add_err _ _ B A3 B3 L H Z) as [N3 E3].
  split; [repeat split; assumption|]. auto.
Qed.

Section Walk.
Variable M : R.
Hypothesis HM : scale M.
Let HS := scale_sized M HM.
Let M0 : 0 < M := sized_pos M HS.
Variables (A : Type) (g : A -> V3 PrimFloat.float) (h : A -> pt) (len : A -> R).
(** the chain of edges *)
Definition good (a : A) : Prop := number3 (g a) /\ norm (psub (val3 (g a)) (h a)) <= 2040 * (U * M) /\ norm (h a) <= len a.
Lemma walk_length (es : list A) : forall p, length (walk p (map g es)) = length es.
Proof. induction es as [|e r IH]; intros p; cbn [walk map length]; [reflexivity|]. f_equal. apply IH. Qed.
Lemma walk_err (es : list A) : forall p B, Forall good es -> number3 p -> within3 B p -> B + sum (map len es) + INR (length es) * (2050 * (U * M)) <= 1001 / 1000 * M ->
  let vs := walk p (map g es) in
  Forall (fun v => number3 v /\ within3 (1001 / 1000 * M) v) vs /\
  forall i (d : V3 PrimFloat.float) (d' : A), (S i < length es)%nat -> norm (psub (psub (val3 (nth (S i) vs d)) (val3 (nth i vs d))) (h (nth i es d'))) <= 2050 * (U * M).
Proof.
  pose proof U_pos as [U0 U1]. assert (0 < U * M) as UM by (apply Rmult_lt_0_compat; lra).
  induction es as [|e r IH]; intros p B G Np Bp Hsum; cbn [walk map]; [split; [constructor|intros i d d' H; cbn in H; lia]|].
  inversion G as [|? ? (Ng & Eg & Lg) Gr E1]; subst. cbn [map sum fold_right length] in Hsum. fold (sum (map len r)) in Hsum. rewrite S_INR in Hsum.
  assert (0 <= sum (map len r)) as Sp.
  { clear - Gr. induction Gr as [|a l (_ & _ & L) _ IHl]; cbn [map sum fold_right]; [lra|]. fold (sum (map len l)). pose proof (norm_nonneg (h a)). lra. }
  assert (0 <= INR (length r) * (2050 * (U * M))) as Ip by (apply Rmult_le_pos; [apply pos_INR|lra]).
  pose proof (norm_nonneg (h e)) as He. assert (B <= 1001 / 1000 * M) as Bm by lra.
  destruct (comp_le (h e)) as (H1 & H2 & H3). destruct (comp_le (psub (val3 (g e)) (h e))) as (C1 & C2 & C3).
  unfold psub, val3 in C1, C2, C3. cbn [vx vy vz] in C1, C2, C3. fold (val3 (g e)) in C1, C2, C3. fold (psub (val3 (g e)) (h e)) in C1, C2, C3.
  destruct Bp as (P1 & P2 & P3). destruct (sized_scale (1001 / 1000) M ltac:(lra) HS) as [S1 S2].
  assert (forall x a b, Rabs x <= B -> Rabs (a - b) <= 2040 * (U * M) -> Rabs b <= len e -> Rabs (x + a) <= B + len e + 2040 * (U * M)) as K.
  { intros x a b X Y Z. apply Rabs_def2_le in X, Y, Z. apply Rabs_le. lra. }
  pose proof (K _ _ _ P1 (Rle_trans _ _ _ C1 Eg) (Rle_trans _ _ _ H1 Lg)) as K1. pose proof (K _ _ _ P2 (Rle_trans _ _ _ C2 Eg) (Rle_trans _ _ _ H2 Lg)) as K2. pose proof (K _ _ _ P3 (Rle_trans _ _ _ C3 Eg) (Rle_trans _ _ _ H3 Lg)) as K3.
  destruct (vadd_err p (g e) (1001 / 1000 * M) Np Ng S1 S2) as (Nq & Q1 & Q2 & Q3); [lra..|]. set (q := vadd p (g e)) in *.
  replace (U * (1001 / 1000 * M)) with (1001 / 1000 * (U * M)) in Q1, Q2, Q3 by field.
  assert (within3 (B + len e + 2050 * (U * M)) q) as Bq.
  { repeat split; [apply Rabs_def2_le in K1, Q1|apply Rabs_def2_le in K2, Q2|apply Rabs_def2_le in K3, Q3]; apply Rabs_le; lra. }
  destruct (IH q (B + len e + 2050 * (U * M)) Gr Nq Bq ltac:(lra)) as [F D]. split.
  - constructor; [|exact F]. split; [exact Np|]. repeat split; lra.
  - intros i d d' Hi. destruct i as [|i].
    + cbn [nth]. destruct r as [|e' r']; [cbn in Hi; lia|]. cbn [map walk nth].
      replace (psub (psub (val3 q) (val3 p)) (h e)) with (padd (psub (val3 q) (padd (val3 p) (val3 (g e)))) (psub (val3 (g e)) (h e))).
      * eapply Rle_trans; [apply norm_tri|]. assert (norm (psub (val3 q) (padd (val3 p) (val3 (g e)))) <= 1733 / 1000 * (1001 / 1000 * (U * M))); [|lra].
        apply norm_le; unfold psub, padd, val3; cbn [vx vy vz]; assumption.
      * clear. generalize (val3 q) (val3 p) (val3 (g e)) (h e). intros [a1 a2 a3] [b1 b2 b3] [c1 c2 c3] [e1 e2 e3]. pts. f_equal; ring.
    + cbn [nth length] in *. apply D. lia.
Qed.
End Walk.

(** ** The middle of the box *)
Lemma fold_min (l : list PrimFloat.float) : forall a, number a -> Forall number l -> number (fold_left nmin l a) /\ In (fold_left nmin l a) (a :: l) /\ forall x, In x (a :: l) -> val (fold_left nmin l a) <= val x.
Proof.
  induction l as [|b r IH]; intros a Na F; cbn [fold_left]; [split; [exact Na|]; split; [left; reflexivity|]; intros x [<- | []]; lra|].
  inversion F as [|? ? Nb Fr]; subst. unfold nmin at 2 4 6. cbn [nltb F_num]. destruct (PrimFloat.ltb b a) eqn:L.
  - apply f_ltb in L; try assumption. destruct (IH b Nb Fr) as (N & I & B). split; [exact N|]. split; [right; exact I|]. intros x [<- | I']; [pose proof (B b (or_introl eq_refl)); lra|apply B, I'].
  - apply f_ltb_false in L; try assumption. destruct (IH a Na Fr) as (N & I & B). split; [exact N|]. split; [destruct I as [I | I]; [left; exact I|right; right; exact I]|].
    intros x [<- | [<- | I']]; [apply B; left; reflexivity|pose proof (B a (or_introl eq_refl)); lra|apply B; right; exact I'].
Qed.
Lemma fold_max (l : list PrimFloat.float) : forall a, number a -> Forall number l -> number (fold_left nmax l a) /\ In (fold_left nmax l a) (a :: l) /\ forall x, In x (a :: l) -> val x <= val (fold_left nmax l a).
Proof.
  induction l as [|b r IH]; intros a Na F; cbn [fold_left]; [split; [exact Na|]; split; [left; reflexivity|]; intros x [<- | []]; lra|].
  inversion F as [|? ? Nb Fr]; subst. unfold nmax at 2 4 6. cbn [nltb F_num]. destruct (PrimFloat.ltb a b) eqn:L.
  - apply f_ltb in L; try assumption. destruct (IH b Nb Fr) as (N & I & B). split; [exact N|]. split; [right; exact I|]. intros x [<- | I']; [pose proof (B b (or_introl eq_refl)); lra|apply B, I'].
  - apply f_ltb_false in L; try assumption. destruct (IH a Na Fr) as (N & I & B). split; [exact N|]. split; [destruct I as [I | I]; [left; exact I|right; right; exact I]|].
    intros x [<- | [<- | I']]; [apply B; left; reflexivity|pose proof (B a (or_introl eq_refl)); lra|apply B; right; exact I'].
Qed.
Lemma f_opp x : number x -> number (- x)%float /\ val (- x)%float = - val x.
Proof. intros N. unfold number, val in *. rewrite opp_equiv. split; [rewrite is_finite_Bopp; exact N|apply B2R_Bopp]. Qed.
Lemma half_val : number (nlit 1 2 : PrimFloat.float) /\ val (nlit 1 2 : PrimFloat.float) = / 2.
Proof.
  change (nlit 1 2 : PrimFloat.float) with 0.5%float. destruct (int_val 0.5%float 4503599627370496 (-53) ltac:(vm_compute; reflexivity)) as [N V]. split; [exact N|]. rewrite V. change (bpow radix2 (-53)) with (/ 9007199254740992). lra.
Qed.
Lemma mid_err M (l : list PrimFloat.float) : scale M -> Forall (fun x => number x /\ Rabs (val x) <= 1001 / 1000 * M) l -> In (nlit 0 1) l ->
  number (bbox_mid l) /\ exists m, middle (map val l) m /\ Rabs (val (bbox_mid l) - m) <= 31 / 10 * (U * M) /\ Rabs m <= 1001 / 1000 * M.
Proof.
  intros HM F I. pose proof (scale_sized M HM) as HS. pose proof (sized_pos M HS) as M0. pose proof U_pos as [U0 U1]. assert (0 < U * M) as UM by (apply Rmult_lt_0_compat; lra).
  assert (U * M <= / 1000000 * M) as UMs by (apply Rmult_le_compat_r; lra).
  assert (Forall number l) as Fn by (eapply Forall_impl; [|exact F]; intros x [A _]; exact A). rewrite Forall_forall in F.
  destruct n0_val as [N0 V0]. destruct (fold_min l _ N0 Fn) as (Nl & Il & Bl). destruct (fold_max l _ N0 Fn) as (Nh & Ih & Bh).
  set (lo := fold_left nmin l (nlit 0 1)) in *. set (hi := fold_left nmax l (nlit 0 1)) in *. change (bbox_mid l) with (lo + nlit 1 2 * (hi - lo))%float.
  assert (In lo l) as Il' by (destruct Il as [<- | Il]; assumption). assert (In hi l) as Ih' by (destruct Ih as [<- | Ih]; assumption).
  destruct (F lo Il') as [_ Ll]. destruct (F hi Ih') as [_ Lh]. destruct half_val as [N5 V5]. apply Rabs_def2_le in Ll, Lh.
  destruct (sized_scale (2003 / 1000) M ltac:(lra) HS) as [S1 S2]. destruct (sized_scale (1003 / 1000) M ltac:(lra) HS) as [S3 S4].
  destruct (sub_err hi lo (2003 / 1000 * M) Nh Nl S1 S2) as [Nd Ed]; [apply Rabs_le; lra|]. set (d := (hi - lo)%float) in *. replace (U * (2003 / 1000 * M)) with (2003 / 1000 * (U * M)) in Ed by field. apply Rabs_def2_le in Ed.
  destruct (mul_err (nlit 1 2) d (1003 / 1000 * M) N5 Nd S3 S4) as [Ne Ee]; [rewrite V5; apply Rabs_le; lra|]. set (e := (nlit 1 2 * d)%float) in *. rewrite V5 in Ee. replace (U * (1003 / 1000 * M)) with (1003 / 1000 * (U * M)) in Ee by field. apply Rabs_def2_le in Ee.
  destruct (add_err lo e (1003 / 1000 * M) Nl Ne S3 S4) as [Nf Ef]; [apply Rabs_le; lra|]. set (f := (lo + e)%float) in *. replace (U * (1003 / 1000 * M)) with (1003 / 1000 * (U * M)) in Ef by field. apply Rabs_def2_le in Ef.
  split; [exact Nf|]. exists ((val lo + val hi) / 2). split; [|split; apply Rabs_le; lra].
  exists (val lo), (val hi). split; [apply in_map, Il'|]. split; [apply in_map, Ih'|]. split; [|reflexivity].
  intros x Hx. apply in_map_iff in Hx. destruct Hx as (y & <- & Hy). split; [apply Bl|apply Bh]; right; exact Hy.
Qed.
Lemma has_middle (l : list R) : l <> [] -> exists m, middle l m.
Proof.
  intros H. assert (forall l : list R, l <> [] -> (exists lo, In lo l /\ forall x, In x l -> lo <= x) /\ (exists hi, In hi l /\ forall x, In x l -> x <= hi)) as G.
  { clear. induction l as [|a r IH]; intros H; [contradiction|]. destruct r as [|b r].
    - split; exists a; (split; [left; reflexivity|intros x [<- | []]; lra]).
    - destruct (IH ltac:(discriminate)) as [(lo & I & B) (hi & I' & B')]. split.
      + destruct (Rle_dec a lo) as [L | L]; [exists a|exists lo]; (split; [first [left; reflexivity|right; exact I]|]); intros x [<- | Ix]; try lra; specialize (B x Ix); lra.
      + destruct (Rle_dec hi a) as [L | L]; [exists a|exists hi]; (split; [first [left; reflexivity|right; exact I']|]); intros x [<- | Ix]; try lra; specialize (B' x Ix); lra. }
  destruct (G l H) as [(lo & I & B) (hi & I' & B')]. exists ((lo + hi) / 2), lo, hi. split; [exact I|]. split; [exact I'|]. split; [intros x Hx; split; auto|reflexivity].
Qed.
Lemma middle_moves {B C} (f : B -> R) (f' : C -> R) (k : B -> C) (l : list B) m s D : middle (map f l) m -> (forall v, In v l -> Rabs (f' (k v) - (f v + s)) <= D) ->
  exists m', middle (map f' (map k l)) m' /\ Rabs (m' - (m + s)) <= D.
Proof.
  intros (lo & hi & Il & Ih & Bd & ->) H. destruct (has_middle (map f' (map k l))) as (m' & Hm).
  { intros E. apply map_eq_nil in E. apply map_eq_nil in E. subst. destruct Il. }
  exists m'. split; [exact Hm|]. destruct Hm as (lo' & hi' & Il' & Ih' & Bd' & ->).
  apply in_map_iff in Il. destruct Il as (v1 & E1 & I1). apply in_map_iff in Ih. destruct Ih as (v2 & E2 & I2).
  rewrite map_map in Il', Ih', Bd'. apply in_map_iff in Il'. destruct Il' as (v3 & E3 & I3). apply in_map_iff in Ih'. destruct Ih' as (v4 & E4 & I4).
  assert (forall v, In v l -> lo <= f v <= hi) as K1 by (intros v I; apply Bd, in_map, I).
  assert (forall v, In v l -> lo' <= f' (k v) <= hi') as K2 by (intros v I; apply Bd', (in_map (fun v => f' (k v))), I).
  pose proof (H v1 I1) as H1. pose proof (H v2 I2) as H2. pose proof (H v3 I3) as H3. pose proof (H v4 I4) as H4. apply Rabs_def2_le in H1, H2, H3, H4.
  pose proof (K1 v3 I3). pose proof (K1 v4 I4). pose proof (K2 v1 I1). pose proof (K2 v2 I2). apply Rabs_le. lra.
Qed.

(** ** The polygon *)
Lemma dirs_unit s d : unit3 (strike_dir s) /\ unit3 (dip_dir s d) /\ unit3 (plane_normal s d) /\ ortho (plane_normal s d) (strike_dir s) /\ ortho (plane_normal s d) (dip_dir s d).
Proof.
  pose proof (sin2_cos2 s) as A. pose proof (sin2_cos2 d) as B. unfold Rsqr in A, B. unfold unit3, ortho, strike_dir, dip_dir, plane_normal, dot. cbn [vx vy vz].
  set (cs := cos s) in *. set (ss := sin s) in *. set (cd := cos d) in *. set (sd := sin d) in *. clearbody cs ss cd sd. repeat split; nsatz.
Qed.
Lemma plane_norm s d x y : norm (SampSpec.in_plane s d x y) <= Rabs x + Rabs y.
Proof.
  destruct (dirs_unit s d) as (A & B & _). apply norm_unit in A, B. unfold SampSpec.in_plane. eapply Rle_trans; [apply norm_tri|]. rewrite !norm_mul, A, B. lra.
Qed.
Lemma turned_twice s d x y : turn (strike_dir s) d (turn (mkV3 0 0 1) s (mkV3 x y 0)) = SampSpec.in_plane s d x y.
Proof.
  pose proof (sin2_cos2 s) as A. unfold Rsqr in A. unfold turn, SampSpec.in_plane, strike_dir, dip_dir. pts.
  set (cs := cos s) in *. set (ss := sin s) in *. set (cd := cos d) in *. set (sd := sin d) in *. clearbody cs ss cd sd. f_equal; nsatz.
Qed.
Section Place.
Context (T : Trig PrimFloat.float).
Variables (strike dip : PrimFloat.float) (M : R).
Hypotheses (HT : accurate T) (Hs : usual_angle strike) (Hd : usual_angle dip) (HM : scale M).
Let HS := scale_sized M HM.
Let M0 : 0 < M := sized_pos M HS.
Let UM : 0 < U * M.
Proof. pose proof U_pos as [U0 _]. apply Rmult_lt_0_compat; lra. Qed.
Let UMs : U * M <= / 1000000 * M.
Proof. pose proof U_pos as [U0 U1]. apply Rmult_le_compat_r; lra. Qed.
Definition sdir : V3 PrimFloat.float := to_dir (mkV3 (nopp (nsin strike)) (ncos strike) n0).
Lemma sdir_ok : direction sdir /\ norm (psub (val3 sdir) (strike_dir (val strike))) <= 16 * U.
Proof.
  pose proof U_pos as [U0 U1]. destruct (cs_err T strike HT Hs) as (Nc & Ns & Ec & Es & _). destruct n0_val as [N0 V0].
  assert (number (- nsin strike)%float /\ val (- nsin strike)%float = - val (nsin strike)) as [No Vo] by (apply f_opp; exact Ns).
  set (v := mkV3 (nopp (nsin strike)) (ncos strike) n0 : V3 PrimFloat.float).
  assert (number3 v) as Nv by (repeat split; assumption).
  assert (norm (psub (val3 v) (strike_dir (val strike))) <= 1733 / 1000 * U) as E.
  { unfold v. apply norm_le; unfold psub, strike_dir, val3; cbn [vx vy vz nopp F_num].
    - rewrite Vo. replace (- val (nsin strike) - - sin (val strike)) with (- (val (nsin strike) - sin (val strike))) by ring. rewrite Rabs_Ropp. exact Es.
    - exact Ec.
    - change (n0 : PrimFloat.float) with (nlit 0 1 : PrimFloat.float). rewrite V0, Rminus_0_r, Rabs_R0. lra. }
  destruct (dirs_unit (val strike) 0) as (Un & _). apply norm_unit in Un. pose proof (norm_near (val3 v) (strike_dir (val strike))) as L. rewrite Un in L.
  destruct (dir_near v Nv ltac:(lra)) as (k & Pk & Hk & Nu & Eu). unfold sdir. fold v.
  split; [exact (dir_is k v Nu Hk Eu (proj1 Pk))|]. pose proof (dir_close k v _ _ Eu Hk Un E). lra.
Qed.
Definition ezf : V3 PrimFloat.float := mkV3 0%float 0%float 1%float.
Lemma ez_is : to_dir (mkV3 n0 n0 n1) = ezf :> V3 PrimFloat.float.
Proof. vm_compute. reflexivity. Qed.
Lemma ez_val : val3 ezf = mkV3 0 0 1 /\ number3 ezf.
Proof. destruct zero_val as [N0 V0], one_val as [N1 V1]. unfold val3, ezf. cbn [vx vy vz]. rewrite V0, V1. split; [reflexivity|]. repeat split; assumption. Qed.
Lemma ez_ok : direction ezf /\ unit3 (mkV3 0 0 1) /\ norm (psub (val3 ezf) (mkV3 0 0 1)) <= 16 * U.
Proof.
  destruct ez_val as [V N]. pose proof U_pos as [U0 U1]. assert (unit3 (mkV3 0 0 1)) as Un by (unfold unit3, dot; cbn [vx vy vz]; ring).
  split; [split; [exact N|]|split; [exact Un|]]; rewrite V.
  - rewrite (norm_unit _ Un), Rminus_diag_eq, Rabs_R0 by reflexivity. rewrite (proj1 U_50). lra.
  - replace (psub (mkV3 0 0 1) (mkV3 0 0 1)) with (zero3 : pt) by (unfold psub, zero3; cbn [vx vy vz]; f_equal; ring).
    unfold norm. replace (dot (zero3 : pt) zero3) with 0 by (unfold dot, zero3; cbn [vx vy vz]; ring). rewrite sqrt_0. lra.
Qed.
Definition gr (e : V3 PrimFloat.float) : V3 PrimFloat.float := rotate (rotate e ezf strike) sdir dip.
Definition hr (e : V3 PrimFloat.float) : pt := SampSpec.in_plane (val strike) (val dip) (val (vx e)) (val (vy e)).
Definition lenr (e : V3 PrimFloat.float) : R := Rabs (val (vx e)) + Rabs (val (vy e)).
Lemma edge_good e : number3 e -> val (vz e) = 0 -> lenr e <= M -> good M _ gr hr lenr e.
Proof.
  intros N Z L. pose proof U_pos as [U0 U1]. unfold lenr in L. pose proof (Rabs_pos (val (vx e))) as A. pose proof (Rabs_pos (val (vy e))) as B.
  assert (point_upto M e) as Pe by (split; [exact N|repeat split; rewrite ?Z, ?Rabs_R0; lra]).
  assert (moderate M) as HM1 by (replace M with (1 * M) by ring; apply scale_moderate; [lra|exact HM]).
  assert (moderate (1002 / 1000 * M)) as HM2 by (apply scale_moderate; [lra|exact HM]).
  destruct ez_ok as (De & Ue & Ee). destruct sdir_ok as (Ds & Es). destruct (dirs_unit (val strike) 0) as (Us & _).
  destruct (rotate_axis T ezf strike _ e M HT De Hs Ue Ee HM1 Pe) as [N1 E1]. set (r := rotate e ezf strike) in *.
  assert (val3 e = mkV3 (val (vx e)) (val (vy e)) 0) as Ve by (unfold val3; rewrite Z; reflexivity).
  assert (norm (turn (mkV3 0 0 1) (val strike) (val3 e)) <= M) as L1.
  { replace (norm (turn (mkV3 0 0 1) (val strike) (val3 e))) with (norm (val3 e)) by (unfold norm; f_equal; symmetry; apply turn_norm; exact Ue).
    rewrite Ve. replace (mkV3 (val (vx e)) (val (vy e)) 0) with (padd (pscale (val (vx e)) (mkV3 1 0 0)) (pscale (val (vy e)) (mkV3 0 1 0))) by (pts; f_equal; ring).
    eapply Rle_trans; [apply norm_tri|]. rewrite !norm_mul, !norm_unit by (unfold unit3, dot; cbn [vx vy vz]; ring). lra. }
  pose proof (norm_near (val3 r) (turn (mkV3 0 0 1) (val strike) (val3 e))) as L2. apply Rabs_def2_le in L2.
  destruct (comp_le (val3 r)) as (C1 & C2 & C3). cbn [vx vy vz val3] in C1, C2, C3.
  destruct (rotate_axis T sdir dip _ r (1002 / 1000 * M) HT Ds Hd Us Es HM2) as [N2 E2]; [split; [exact N1|repeat split; lra]|].
  split; [exact N2|]. split; [|exact (plane_norm _ _ _ _)]. unfold hr. rewrite <- turned_twice, <- Ve. unfold gr. fold r.
  eapply Rle_trans; [apply (psub_tri _ (turn (strike_dir (val strike)) (val dip) (val3 r)))|]. rewrite (turn_iso _ _ _ _ Us). lra.
Qed.
Variables (es : list (V3 PrimFloat.float)) (ctr : V3 PrimFloat.float).
Hypotheses (He : edges_upto M es) (Hn : (1 <= length es <= 1000)%nat) (Hc : point_upto M ctr).
Let vs := walk (mkV3 n0 n0 n0) (map gr es).
Lemma es_good : Forall (good M _ gr hr lenr) es.
Proof.
  destruct He as [F S]. clear Hn. clear He vs. induction F as [|e r [N Z] F IH]; [constructor|]. cbn [map sum fold_right] in S. change (fold_right Rplus 0 (map (fun e => Rabs (val (vx e)) + Rabs (val (vy e))) r)) with (sum (map lenr r)) in S.
  fold (lenr e) in S. assert (0 <= sum (map lenr r)) as P.
  { clear. induction r as [|a l IH]; cbn [map sum fold_right]; [lra|]. fold (sum (map lenr l)). unfold lenr at 1. pose proof (Rabs_pos (val (vx a))). pose proof (Rabs_pos (val (vy a))). lra. }
  constructor; [apply edge_good; [exact N|exact Z|lra]|apply IH]. change (sum (map lenr r) <= M). assert (0 <= lenr e); [|lra]. unfold lenr. pose proof (Rabs_pos (val (vx e))). pose proof (Rabs_pos (val (vy e))). lra.
Qed.
Lemma place_is : place_polygon es strike dip ctr =
  map (fun v => vadd v (vec_to (mkV3 (bbox_mid (map vx vs)) (bbox_mid (map vy vs)) (bbox_mid (map vz vs))) ctr)) vs.
Proof. unfold place_polygon, rotate_all. cbv zeta. rewrite ez_is, map_map. reflexivity. Qed.
Lemma vs_ok : length vs = length es /\ Forall (fun v => number3 v /\ within3 (1001 / 1000 * M) v) vs /\ In (mkV3 n0 n0 n0) vs /\
  forall i d d', (S i < length es)%nat -> norm (psub (psub (val3 (nth (S i) vs d)) (val3 (nth i vs d))) (hr (nth i es d'))) <= 2050 * (U * M).
Proof.
  destruct n0_val as [N0 V0]. pose proof (walk_length _ gr es (mkV3 n0 n0 n0)) as L. fold vs in L.
  assert (INR (length es) * (2050 * (U * M)) <= / 1000 * M) as Sm.
  { assert (INR (length es) <= 1000) as K by (replace 1000 with (INR 1000) by (cbn; lra); apply le_INR; lia). pose proof (pos_INR (length es)).
    apply Rle_trans with (1000 * (2050 * (U * M))); [apply Rmult_le_compat_r; lra|]. replace (1000 * (2050 * (U * M))) with (2050000 * U * M) by ring. apply Rmult_le_compat_r; [lra|]. unfold U. lra. }
  destruct (walk_err M HM _ gr hr lenr es (mkV3 n0 n0 n0) 0 es_good) as [F D].
  - repeat split; exact N0.
  - change (n0 : PrimFloat.float) with (nlit 0 1 : PrimFloat.float). repeat split; cbn [vx vy vz]; rewrite V0, Rabs_R0; lra.
  - destruct He as [_ S]. change (sum (map lenr es) <= M) in S. lra.
  - split; [exact L|]. split; [exact F|]. split; [|exact D]. unfold vs. destruct es as [|e r]; [cbn in Hn; lia|]. left. reflexivity.
Qed.
(** the shift of one coordinate *)
Lemma shift_err (m : R) (mid : PrimFloat.float) v : number mid -> Rabs (val mid - m) <= 31 / 10 * (U * M) -> Rabs m <= 1001 / 1000 * M ->
  number v -> Rabs (val v) <= 1001 / 1000 * M -> forall c, number c -> Rabs (val c) <= M ->
  number (v + (c - mid))%float /\ Rabs (val (v + (c - mid))%float - (val v + (val c - val mid))) <= 51 / 10 * (U * M) /\ Rabs (val (v + (c - mid))%float) <= 4 * M.
Proof.
  intros Nm Em Bm Nv Bv c Nc Bc. apply Rabs_def2_le in Em, Bm, Bv, Bc.
  destruct (sized_scale (2002 / 1000) M ltac:(lra) HS) as [S1 S2]. destruct (sized_scale (3005 / 1000) M ltac:(lra) HS) as [S3 S4].
  destruct (sub_err c mid (2002 / 1000 * M) Nc Nm S1 S2) as [N1 E1]; [apply Rabs_le; lra|]. replace (U * (2002 / 1000 * M)) with (2002 / 1000 * (U * M)) in E1 by field. set (s := (c - mid)%float) in *. apply Rabs_def2_le in E1.
  destruct (add_err v s (3005 / 1000 * M) Nv N1 S3 S4) as [N2 E2]; [apply Rabs_le; lra|]. replace (U * (3005 / 1000 * M)) with (3005 / 1000 * (U * M)) in E2 by field. set (t := (v + s)%float) in *. apply Rabs_def2_le in E2.
  split; [exact N2|]. split; apply Rabs_le; lra.
Qed.

Let cs := place_polygon es strike dip ctr.
Lemma forall_map {B C} (k : B -> C) (P : C -> Prop) (Q : B -> Prop) l : (forall b, Q b -> P (k b)) -> Forall Q l -> Forall P (map k l).
Proof. intros H F. induction F; cbn [map]; constructor; auto. Qed.
Lemma place_all : exists sh : V3 PrimFloat.float, cs = map (fun v => vadd v sh) vs /\
  exists tx ty tz, (forall v, In v vs -> number3 (vadd v sh) /\ within3 (4 * M) (vadd v sh) /\
    Rabs (val (vx (vadd v sh)) - (val (vx v) + tx)) <= 51 / 10 * (U * M) /\ Rabs (val (vy (vadd v sh)) - (val (vy v) + ty)) <= 51 / 10 * (U * M) /\ Rabs (val (vz (vadd v sh)) - (val (vz v) + tz)) <= 51 / 10 * (U * M)) /\
  exists mx my mz, middle (map (fun v => val (vx v)) vs) mx /\ middle (map (fun v => val (vy v)) vs) my /\ middle (map (fun v => val (vz v)) vs) mz /\
    Rabs (mx + tx - val (vx ctr)) <= 31 / 10 * (U * M) /\ Rabs (my + ty - val (vy ctr)) <= 31 / 10 * (U * M) /\ Rabs (mz + tz - val (vz ctr)) <= 31 / 10 * (U * M).
Proof.
  destruct vs_ok as (_ & F & I & _). unfold cs. rewrite place_is. eexists. split; [reflexivity|].
  destruct (mid_err M (map vx vs) HM) as (Nx & mx & Mx & Ex & Bx); [eapply forall_map; [|exact F]; intros b [(N & _) (W & _)]; split; assumption|exact (in_map vx _ _ I)|].
  destruct (mid_err M (map vy vs) HM) as (Ny & my & My & Ey & By); [eapply forall_map; [|exact F]; intros b [(_ & N & _) (_ & W & _)]; split; assumption|exact (in_map vy _ _ I)|].
  destruct (mid_err M (map vz vs) HM) as (Nz & mz & Mz & Ez & Bz); [eapply forall_map; [|exact F]; intros b [(_ & _ & N) (_ & _ & W)]; split; assumption|exact (in_map vz _ _ I)|].
  destruct Hc as [(C1 & C2 & C3) (D1 & D2 & D3)]. set (qx := bbox_mid (map vx vs)) in *. set (qy := bbox_mid (map vy vs)) in *. set (qz := bbox_mid (map vz vs)) in *.
  exists (val (vx ctr) - val qx), (val (vy ctr) - val qy), (val (vz ctr) - val qz). split.
  - intros v Iv. rewrite Forall_forall in F. destruct (F v Iv) as [(N1 & N2 & N3) (W1 & W2 & W3)].
    destruct (shift_err mx qx (vx v) Nx Ex Bx N1 W1 (vx ctr) C1 D1) as (A1 & A2 & A3).
    destruct (shift_err my qy (vy v) Ny Ey By N2 W2 (vy ctr) C2 D2) as (B1 & B2 & B3).
    destruct (shift_err mz qz (vz v) Nz Ez Bz N3 W3 (vz ctr) C3 D3) as (E1 & E2 & E3).
    unfold vadd, vec_to. cbn [vx vy vz nadd nsub F_num]. split; [repeat split; assumption|]. split; [repeat split; assumption|]. auto.
  - exists mx, my, mz. rewrite map_map in Mx, My, Mz. split; [exact Mx|]. split; [exact My|]. split; [exact Mz|].
    apply Rabs_def2_le in Ex, Ey, Ez. repeat split; apply Rabs_le; lra.
Qed.
Lemma p41 : powerRZ 2 (-41) = 4096 * U /\ powerRZ 2 (-49) = 16 * U.
Proof. rewrite !two_p. change (bpow radix2 (-41)) with (/ 2199023255552). change (bpow radix2 (-49)) with (/ 562949953421312). unfold U. lra. Qed.
Lemma place_count : length cs = length es /\ Forall (point_upto (4 * M)) cs.
Proof.
  destruct place_all as (sh & E & tx & ty & tz & H & _). rewrite E. rewrite map_length. split; [exact (proj1 vs_ok)|].
  apply Forall_forall. intros c Ic. apply in_map_iff in Ic. destruct Ic as (v & <- & Iv). destruct (H v Iv) as (A & B & _). split; assumption.
Qed.
Lemma place_edges i : (S i < length es)%nat ->
  norm (psub (psub (val3 (nth (S i) cs origin)) (val3 (nth i cs origin))) (SampSpec.in_plane (val strike) (val dip) (val (vx (nth i es origin))) (val (vy (nth i es origin))))) <= powerRZ 2 (-41) * M.
Proof.
  intros Hi. destruct place_all as (sh & E & tx & ty & tz & H & _). destruct vs_ok as (L & F & _ & D). rewrite E.
  set (k := fun v => vadd v sh) in *. rewrite (nth_indep (map k vs) origin (k origin)) by (rewrite map_length; lia). rewrite (nth_indep (map k vs) origin (k origin) (n := i)) by (rewrite map_length; lia).
  rewrite !map_nth. specialize (D i origin origin Hi). unfold hr in D. set (w := SampSpec.in_plane _ _ _ _) in *.
  pose proof (H (nth (S i) vs origin) ltac:(apply nth_In; lia)) as (_ & _ & A1 & A2 & A3). pose proof (H (nth i vs origin) ltac:(apply nth_In; lia)) as (_ & _ & B1 & B2 & B3).
  set (a := nth (S i) vs origin) in *. set (b := nth i vs origin) in *. unfold k. set (a' := vadd a sh) in *. set (b' := vadd b sh) in *.
  replace (psub (psub (val3 a') (val3 b')) w) with (padd (psub (psub (val3 a) (val3 b)) w) (psub (psub (val3 a') (val3 b')) (psub (val3 a) (val3 b)))) by (clear; generalize (val3 a') (val3 b') (val3 a) (val3 b) w; intros [p1 p2 p3] [q1 q2 q3] [r1 r2 r3] [s1 s2 s3] [t1 t2 t3]; pts; f_equal; ring).
  eapply Rle_trans; [apply norm_tri|]. rewrite (proj1 p41). assert (norm (psub (psub (val3 a') (val3 b')) (psub (val3 a) (val3 b))) <= 1733 / 1000 * (102 / 10 * (U * M))); [|lra].
  apply Rabs_def2_le in A1, A2, A3, B1, B2, B3. apply norm_le; unfold psub, val3; cbn [vx vy vz]; apply Rabs_le; lra.
Qed.
Lemma place_middle : exists mx my mz, middle (map (fun c => val (vx c)) cs) mx /\ middle (map (fun c => val (vy c)) cs) my /\ middle (map (fun c => val (vz c)) cs) mz /\
  Rabs (mx - val (vx ctr)) <= powerRZ 2 (-49) * M /\ Rabs (my - val (vy ctr)) <= powerRZ 2 (-49) * M /\ Rabs (mz - val (vz ctr)) <= powerRZ 2 (-49) * M.
Proof.
  destruct place_all as (sh & E & tx & ty & tz & H & mx & my & mz & Mx & My & Mz & Ex & Ey & Ez). rewrite E, (proj2 p41).
  destruct (middle_moves (fun v => val (vx v)) (fun v => val (vx v)) (fun v => vadd v sh) vs mx tx _ Mx (fun v Iv => proj1 (proj2 (proj2 (H v Iv))))) as (m1 & A1 & B1).
  destruct (middle_moves (fun v => val (vy v)) (fun v => val (vy v)) (fun v => vadd v sh) vs my ty _ My (fun v Iv => proj1 (proj2 (proj2 (proj2 (H v Iv)))))) as (m2 & A2 & B2).
  destruct (middle_moves (fun v => val (vz v)) (fun v => val (vz v)) (fun v => vadd v sh) vs mz tz _ Mz (fun v Iv => proj2 (proj2 (proj2 (proj2 (H v Iv)))))) as (m3 & A3 & B3).
  exists m1, m2, m3. split; [exact A1|]. split; [exact A2|]. split; [exact A3|]. apply Rabs_def2_le in B1, B2, B3, Ex, Ey, Ez. repeat split; apply Rabs_le; lra.
Qed.
(** all the edges up to a corner *)
Lemma place_sum j : (j < length es)%nat -> exists X Y, X = sum (map (fun e => val (vx e)) (firstn j es)) /\ Y = sum (map (fun e => val (vy e)) (firstn j es)) /\
  norm (psub (psub (val3 (nth j cs origin)) (val3 (nth 0 cs origin))) (SampSpec.in_plane (val strike) (val dip) X Y)) <= INR j * (powerRZ 2 (-41) * M).
Proof.
  induction j as [|j IH]; intros Hj.
  - exists 0, 0. split; [reflexivity|]. split; [reflexivity|]. set (w := psub _ _). replace w with (zero3 : pt).
    + unfold norm. replace (dot (zero3 : pt) zero3) with 0 by (unfold dot, zero3; cbn [vx vy vz]; ring). rewrite sqrt_0. cbn [INR]. lra.
    + unfold w, SampSpec.in_plane. generalize (val3 (nth 0 cs origin)) (dip_dir (val strike) (val dip)) (strike_dir (val strike)). intros [a b c] [d e f] [p q r]. unfold zero3. pts. f_equal; ring.
  - destruct (IH ltac:(lia)) as (X & Y & EX & EY & D). pose proof (place_edges j Hj) as D'. set (e := nth j es origin) in *.
    exists (X + val (vx e)), (Y + val (vy e)).
    assert (firstn (S j) es = firstn j es ++ [e]) as FS.
    { clear - Hj. unfold e. revert Hj. generalize es. clear. induction j as [|j IH]; intros [|a r] H; cbn [length] in H; try lia; cbn [firstn nth app]; [reflexivity|]. f_equal. apply IH. lia. }
    rewrite FS, !map_app, EX, EY. unfold sum. rewrite !fold_right_app. cbn [map fold_right].
    assert (forall (l : list R) a, fold_right Rplus (a + 0) l = fold_right Rplus 0 l + a) as FR by (induction l as [|x l IHl]; intros a; cbn [fold_right]; [ring|rewrite IHl; ring]).
    rewrite !FR. split; [reflexivity|]. split; [reflexivity|]. rewrite S_INR. fold (sum (map (fun e => val (vx e)) (firstn j es))). fold (sum (map (fun e => val (vy e)) (firstn j es))). rewrite <- EX, <- EY.
    set (p := val3 (nth (S j) cs origin)) in *. set (q := val3 (nth j cs origin)) in *. set (o := val3 (nth 0 cs origin)) in *.
    replace (psub (psub p o) (SampSpec.in_plane (val strike) (val dip) (X + val (vx e)) (Y + val (vy e))))
      with (padd (psub (psub q o) (SampSpec.in_plane (val strike) (val dip) X Y)) (psub (psub p q) (SampSpec.in_plane (val strike) (val dip) (val (vx e)) (val (vy e))))).
    + eapply Rle_trans; [apply norm_tri|]. lra.
    + unfold SampSpec.in_plane. clear. generalize p q o (dip_dir (val strike) (val dip)) (strike_dir (val strike)) (val (vx e)) (val (vy e)). intros [p1 p2 p3] [q1 q2 q3] [o1 o2 o3] [d1 d2 d3] [s1 s2 s3] x y. pts. f_equal; ring.
Qed.
Lemma plane_dot X Y : dot (plane_normal (val strike) (val dip)) (SampSpec.in_plane (val strike) (val dip) X Y) = 0.
Proof. destruct (dirs_unit (val strike) (val dip)) as (_ & _ & _ & A & B). unfold ortho in A, B. unfold SampSpec.in_plane. rewrite dot_add, !dot_mul, A, B. ring. Qed.
Lemma place_plane j : (j < length es)%nat -> Rabs (dot (plane_normal (val strike) (val dip)) (psub (val3 (nth j cs origin)) (val3 (nth 0 cs origin)))) <= INR j * (powerRZ 2 (-41) * M).
Proof.
  intros Hj. destruct (place_sum j Hj) as (X & Y & _ & _ & D). destruct (dirs_unit (val strike) (val dip)) as (_ & _ & A & _). apply norm_unit in A.
  rewrite (split_sub (psub (val3 (nth j cs origin)) (val3 (nth 0 cs origin))) (SampSpec.in_plane (val strike) (val dip) X Y)), dot_add, plane_dot, Rplus_0_l.
  eapply Rle_trans; [apply cauchy_norm|]. rewrite A, Rmult_1_l. exact D.
Qed.
(** the last edge leads back to the first corner *)
Lemma place_closed : let n := length es in
  norm (psub (psub (val3 (nth 0 cs origin)) (val3 (nth (n - 1) cs origin))) (SampSpec.in_plane (val strike) (val dip) (val (vx (nth (n - 1) es origin))) (val (vy (nth (n - 1) es origin)))))
    <= INR (n - 1) * (powerRZ 2 (-41) * M) + Rabs (sum (map (fun e => val (vx e)) es)) + Rabs (sum (map (fun e => val (vy e)) es)).
Proof.
  cbv zeta. set (n := length es). destruct (place_sum (n - 1) ltac:(unfold n; lia)) as (X & Y & EX & EY & D). set (e := nth (n - 1) es origin).
  assert (es = firstn (n - 1) es ++ [e]) as FS.
  { unfold e, n. clear - Hn. revert Hn. generalize es. clear. intros es H. assert (es <> []) as N by (intros ->; cbn in H; lia). rewrite (app_removelast_last origin N) at 1.
    rewrite removelast_firstn_len. replace (Nat.pred (length es)) with (length es - 1)%nat by lia. f_equal. f_equal. clear. induction es as [|a [|b r] IH]; [reflexivity|reflexivity|]. cbn [length Nat.sub] in *. cbn [last nth] in *. rewrite IH. rewrite ?Nat.sub_0_r. reflexivity. }
  assert (sum (map (fun e => val (vx e)) es) = X + val (vx e) /\ sum (map (fun e => val (vy e)) es) = Y + val (vy e)) as [SX SY].
  { assert (forall (l : list R) a, fold_right Rplus (a + 0) l = fold_right Rplus 0 l + a) as FR by (induction l as [|x l IHl]; intros a; cbn [fold_right]; [ring|rewrite IHl; ring]).
    split; rewrite FS, map_app; unfold sum; rewrite fold_right_app; cbn [map fold_right]; rewrite FR; [rewrite EX|rewrite EY]; reflexivity. }
  rewrite SX, SY. set (p := val3 (nth (n - 1) cs origin)) in *. set (o := val3 (nth 0 cs origin)) in *.
  pose proof (plane_norm (val strike) (val dip) (X + val (vx e)) (Y + val (vy e))) as P.
  replace (psub (psub o p) (SampSpec.in_plane (val strike) (val dip) (val (vx e)) (val (vy e))))
    with (padd (pscale (-1) (psub (psub p o) (SampSpec.in_plane (val strike) (val dip) X Y))) (pscale (-1) (SampSpec.in_plane (val strike) (val dip) (X + val (vx e)) (Y + val (vy e))))).
  - eapply Rle_trans; [apply norm_tri|]. rewrite !norm_mul, Rabs_left by lra. lra.
  - unfold SampSpec.in_plane. clear. generalize p o (dip_dir (val strike) (val dip)) (strike_dir (val strike)) (val (vx e)) (val (vy e)). intros [p1 p2 p3] [o1 o2 o3] [d1 d2 d3] [s1 s2 s3] x y. pts. f_equal; ring.
Qed.
End Place.
