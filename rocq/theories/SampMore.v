(** Statements of the sampler properties in their final form: proofs. *)

From Coq Require Import ZArith Reals Lra Lia Psatz Bool List Permutation.
From Verif Require Import Base NumModel VecModel LinModel RoundModel PolyModel DistModel IntModel SampModel
  GeoSpec LinSpec RoundSpec PolySpec SampSpec GeoLemmas MathProofs LinProofs EllProofs CylProofs SampProofs SampPoly SampConvex SampPy
  SampExamples.
Import ListNotations.
Local Open Scope R_scope.

Lemma polygon_partial srt d cs : sorts srt -> sample_corners srt d = Ok cs ->
  (exists i n, first_at (fun v => (3 <= v)%Z) (d_num d) i n /\ length cs = Z.to_nat n) /\
  planar (plane_normal (d_strike d) (d_dip d)) cs /\
  middle (map vx cs) (vx (d_center d)) /\ middle (map vy cs) (vy (d_center d)) /\ middle (map vz cs) (vz (d_center d)) /\
  exists slen dlen ds, sum (map fst ds) = 0 /\ sum (map snd ds) = 0 /\
    made_of (d_strike d) (d_dip d) dlen slen ds cs.
Proof.
  intros Hs E. destruct (sampled_polygon srt d cs Hs E) as (n & i & slen & dlen & ds & w & h & k & Hi & Hf & H3 & L & _ & _ & _ & (S1 & S2 & _) & _ & Hm & _).
  split; [eauto|]. split; [apply (made_of_planar _ _ _ _ _ _ Hm)|].
  destruct (corners_centre srt d cs Hs E) as (C1 & C2 & C3). do 3 (split; [assumption|]). exists slen, dlen, ds. auto.
Qed.

(** ** C55 *)
Lemma outcomes srt d : sample_corners srt d = Throw RuntimeError \/ exists cs, sample_corners srt d = Ok cs.
Proof.
  destruct (sample_cases srt d) as [[_ E]|(n & i & _ & _ & _ & ds & w & h & _ & _ & _ & _ & C)]; [left; exact E|].
  destruct C as [[_ E]|(slen & dlen & k & _ & _ & _ & E)]; [left; exact E|right; eauto].
Qed.

Lemma hundredth srt d : (forall i, (i < 99)%nat -> (d_num d i < 3)%Z) -> (3 <= d_num d 99%nat)%Z ->
  sample_corners srt d = Throw RuntimeError.
Proof. intros H _. apply throws_iff. left. exact H. Qed.

Lemma negative_dip srt d : (3 <= d_num d 0%nat)%Z -> 0 <= d_slen d 0%nat -> (forall i, d_dlen d i < 0) ->
  exists cs, sample_corners srt d = Ok cs.
Proof.
  intros Hn Hs _. apply returns_iff. intros C. apply throws_iff in C. destruct C as [C|C].
  - pose proof (C 0%nat ltac:(lia)). lia.
  - pose proof (C 0%nat ltac:(lia)). lra.
Qed.

Lemma zero_strike srt d : sorts srt -> (3 <= d_num d 0%nat)%Z -> d_slen d 0%nat = 0 ->
  exists cs, sample_corners srt d = Ok cs /\
    forall p q, In p cs -> In q cs -> dot (psub p q) (strike_dir (d_strike d)) = 0.
Proof.
  intros Hs Hn H0.
  assert (exists cs, sample_corners srt d = Ok cs) as (cs & E).
  { apply returns_iff. intros C. apply throws_iff in C. destruct C as [C|C].
    - pose proof (C 0%nat ltac:(lia)). lia.
    - pose proof (C 0%nat ltac:(lia)). lra. }
  exists cs. split; [exact E|]. destruct (sampled_extent srt d cs Hs E) as (slen & dlen & w & h & k & _ & (F1 & F2 & F3) & _ & _ & He & _).
  assert (slen = 0) as ->.
  { destruct k as [|k]; [congruence|]. exfalso. apply (F3 0%nat); [lia|lra]. }
  intros p q Hp Hq. destruct (He p q Hp Hq) as [_ A]. destruct (He q p Hq Hp) as [_ B].
  assert (dot (psub q p) (strike_dir (d_strike d)) = - dot (psub p q) (strike_dir (d_strike d))) as Eo by (clear; coords; ring).
  lra.
Qed.

(** ** C57 *)
Lemma py_returns d n i k : unit_draws d -> first_at (fun v => (3 <= v)%Z) (d_num d) i n -> (i < 99)%nat -> (n <= 16)%Z ->
  (k < 100)%nat -> 0 <= d_slen d k ->
  exists cs, (forall fuel, (i < fuel)%nat -> py_sample_corners d fuel = Ok cs) /\
    length cs = Z.to_nat n /\
    exists slen ds w h, first_draw (fun x => 0 <= x) (d_slen d) slen /\
      steps_ok w h ds /\ 8 / 10 <= w <= 1 /\ 8 / 10 <= h <= 1 /\
      made_of (d_strike d) (d_dip d) (d_dlen d 0%nat) slen ds cs.
Proof.
  intros Hu Hf Hi Hn Hk Hs. pose proof (py_sample_eq d n i Hf Hi Hn Hu) as He.
  assert (exists cs, sample_corners (isort edge_before) (first_dip d) = Ok cs) as (cs & E).
  { apply returns_iff. intros C. apply throws_iff in C. cbn [first_dip d_num d_slen] in C. destruct C as [C|C].
    - pose proof (C i Hi). destruct Hf as (F1 & F2 & _). lia.
    - pose proof (C k Hk). lra. }
  exists cs. split; [intros fuel Hfu; rewrite (He fuel Hfu); exact E|].
  destruct (sampled_polygon _ _ cs isort_sorts E) as (n' & i' & slen & dlen & ds & w & h & k' & Hi' & Hf' & H3 & L & Hk' & Hsl & Hdl & Hst & Hw & Hm & _).
  cbn [first_dip d_num d_slen d_dlen d_strike d_dip] in *.
  assert (n' = n) as ->.
  { destruct Hf as (F1 & F2 & F3), Hf' as (G1 & G2 & G3). destruct (Nat.lt_trichotomy i i') as [Lt|[->|Lt]].
    - exfalso. apply (G3 i Lt). lia.
    - congruence.
    - exfalso. apply (F3 i' Lt). lia. }
  split; [exact L|]. exists slen, ds, w, h. split; [exists k'; exact Hsl|]. split; [exact Hst|].
  destruct (Hw Hu) as [W1 W2]. split; [exact W1|]. split; [exact W2|].
  assert (dlen = d_dlen d 0%nat) as <-; [|exact Hm].
  destruct Hdl as [(j & _ & E' & _)|[_ E']]; congruence.
Qed.

Lemma py_same d n i : unit_draws d -> first_at (fun v => (3 <= v)%Z) (d_num d) i n -> (i < 99)%nat -> (n <= 16)%Z ->
  0 <= d_dlen d 0%nat -> forall fuel, (i < fuel)%nat -> py_sample_corners d fuel = sample_corners (isort edge_before) d.
Proof.
  intros Hu Hf Hi Hn Hd fuel Hfu. rewrite (py_sample_eq d n i Hf Hi Hn Hu fuel Hfu).
  unfold sample_corners, first_dip. cbn [d_num d_unit d_slen d_dlen d_strike d_dip d_center].
  destruct (retry (fun k => (k <? 3)%Z) (d_num d) 0 100 0 0%Z) as [m c]. destruct (Nat.eqb c 100); [reflexivity|].
  destruct (deltas_for (Z.to_nat m) (d_unit d)) as [ds| | |]; cbn [obind]; try reflexivity. rn. change (nlit 0 1) with 0.
  destruct (retry (fun l => Rltb l 0) (d_slen d) 1 100 0 (d_slen d 0%nat)) as [sl cs].
  rewrite !retry_false by (apply Rltb_false; lra). reflexivity.
Qed.

Lemma py_negative : exists cs ds, unit_draws neg_dip /\
  (forall fuel, (0 < fuel)%nat -> py_sample_corners neg_dip fuel = Ok cs) /\ (forall i, d_dlen neg_dip i = -4) /\
  made_of 0 0 (-4) 2 ds cs.
Proof.
  destruct (py_returns neg_dip 4 0 0 neg_dip_unit) as (cs & E & _ & slen & ds & w & h & (i & Hf & _) & _ & _ & _ & Hm); try lia.
  - split; [reflexivity|]. split; [lia|]. intros j Hj. lia.
  - cbn. lra.
  - exists cs, ds. split; [exact neg_dip_unit|]. split; [exact E|]. split; [reflexivity|]. cbn in Hf. subst slen. exact Hm.
Qed.

(** ** C53, non-vacuity *)
Lemma disk_example : exists e, sample_disk (fun i => INR i - 1) (fun _ => 3) 0 0 0 zero3 3 = Ok e /\ e_a e = 1 /\ e_b e = 1.
Proof.
  rewrite sample_disk_eq. cbn [draw_until].
  rewrite (proj2 (posb_false (INR 0 - 1))) by (cbn; lra). rewrite (proj2 (posb_false (INR 1 - 1))) by (cbn; lra).
  rewrite (proj2 (posb_spec (INR 2 - 1))) by (cbn; lra). cbn [obind]. rewrite (proj2 (posb_spec 3)) by lra. cbn [obind fst].
  eexists. split; [reflexivity|]. unfold make_ell. cbn. split; [lra|]. rewrite Rmin_left; lra.
Qed.

(** ** C56 *)
Lemma old_quad_drawn s d c edge min q : sample_old_quad s d c edge min = Ok q ->
  q_0 q = padd c (in_plane s d (- edge 0%nat / 2) (- edge 2%nat / 2)) /\
  q_1 q = padd c (in_plane s d (edge 1%nat / 2) (- edge 3%nat / 2)) /\
  q_2 q = padd c (in_plane s d (- edge 0%nat / 2) (edge 2%nat / 2)) /\
  q_3 q = padd c (in_plane s d (edge 1%nat / 2) (edge 3%nat / 2)).
Proof. intros E. rewrite (old_quad_corners _ _ _ _ _ _ E). apply strike_dip_corners. Qed.

Lemma trapezoid_convex s d c x1 x2 y1 y2 : 0 < x1 -> 0 < x2 -> 0 < y1 -> 0 < y2 ->
  convex_ccw (plane_normal s d) (around (padd c (in_plane s d (- x1 / 2) (- y1 / 2))) (padd c (in_plane s d (x2 / 2) (- y2 / 2)))
                                        (padd c (in_plane s d (- x1 / 2) (y1 / 2))) (padd c (in_plane s d (x2 / 2) (y2 / 2)))).
Proof.
  intros X1 X2 Y1 Y2.
  assert (forall u v u' v', psub (padd c (in_plane s d u v)) (padd c (in_plane s d u' v')) = in_plane s d (u - u') (v - v')) as D.
  { intros. unfold in_plane. coords. v3; ring. }
  assert (forall u v u' v' u'' v'', orient (plane_normal s d) (padd c (in_plane s d u v)) (padd c (in_plane s d u' v')) (padd c (in_plane s d u'' v'')) =
     (u' - u) * (v'' - v) - (v' - v) * (u'' - u)) as O.
  { intros. unfold orient. rewrite !D. apply det_in_plane. }
  split; [apply normal_unit|]. split; [|split; [cbn; lia|split]].
  - assert (forall u v u' v', dot (plane_normal s d) (psub (padd c (in_plane s d u v)) (padd c (in_plane s d u' v'))) = 0) as P.
    { intros. rewrite D. unfold in_plane. transitivity ((u - u') * dot (dip_dir s d) (plane_normal s d) + (v - v') * dot (strike_dir s) (plane_normal s d)); [clear; coords; ring|].
      rewrite (normal_dip s d), (normal_strike s d). ring. }
    intros a b Ha Hb. cbn in Ha, Hb. destruct Ha as [<-|[<-|[<-|[<-|[]]]]], Hb as [<-|[<-|[<-|[<-|[]]]]]; apply P.
  - intros i j k Hij Hk. cbn [around length] in Hk. destruct i as [|[|[|[|i]]]], j as [|[|[|[|j]]]], k as [|[|[|[|k]]]]; try lia;
    unfold around; cbn [nth]; rewrite O; nra.
  - unfold around. cbn [nth]. rewrite O. nra.
Qed.

Lemma old_quad_convex s d c edge min q : 0 < min -> sample_old_quad s d c edge min = Ok q ->
  convex_ccw (plane_normal s d) (around (q_0 q) (q_1 q) (q_2 q) (q_3 q)).
Proof.
  intros Hm E. destruct (old_quad_drawn _ _ _ _ _ _ E) as (-> & -> & -> & ->).
  assert (forall i, (i < 4)%nat -> min <= edge i) as H by (apply (old_quad_iff s d c); eauto).
  pose proof (H 0%nat ltac:(lia)). pose proof (H 1%nat ltac:(lia)). pose proof (H 2%nat ltac:(lia)). pose proof (H 3%nat ltac:(lia)).
  apply trapezoid_convex; lra.
Qed.

Lemma old_quad_stuck s d c edge min : edge 0%nat < min -> (forall i, (1 <= i)%nat -> min <= edge i) -> sample_old_quad s d c edge min = Diverge.
Proof. intros H _. apply (old_quad_hangs s d c edge min 0); [lia|exact H]. Qed.

Lemma py_old_quad_good s d c edge min : 0 < min -> (forall n, exists j, (n <= j)%nat /\ min <= edge j) ->
  exists fuel0 q, (forall fuel, (fuel0 <= fuel)%nat -> py_old_quad s d c edge min fuel = Ok q) /\
    convex_ccw (plane_normal s d) (around (q_0 q) (q_1 q) (q_2 q) (q_3 q)).
Proof.
  intros Hm Hi. destruct (py_old_quad_returns s d c edge min Hi) as (f & q & Hq). exists f, q. split; [exact Hq|].
  destruct (py_old_quad_valid _ _ _ _ _ _ _ (Hq f ltac:(lia))) as (x1 & x2 & y1 & y2 & H1 & H2 & H3 & H4 & ->).
  destruct (strike_dip_corners s d c x1 x2 y1 y2) as (-> & -> & -> & ->). apply trapezoid_convex; lra.
Qed.
