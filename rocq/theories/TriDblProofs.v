(** Triangles, quadrilaterals and polygons in double precision. *)

From Coq Require Import ZArith Reals Floats List Lra Lia Psatz Bool.
From Flocq Require Import Core.Core IEEE754.BinarySingleNaN IEEE754.PrimFloat Relative.
From Verif Require Import Base NumModel VecModel LinModel PolyModel GeoSpec PolySpec DblSpec GeoLemmas PolyProofs PolyBridge
  DblLemmas DblProofs DblLen DblEq LinDblSpec LinDblBase LinDblFoot LinDblProofs LinDblDist TriDblSpec TriDblBase.
Import ListNotations.
Local Open Scope R_scope.

Lemma spread_sub S ps qs : spread S ps -> (forall p, In p qs -> In p ps) -> spread S qs.
Proof. intros [A B] H. split; [intros p Hp; apply A, H, Hp|intros p q Hp Hq; apply B; apply H; assumption]. Qed.

(** ** Sums *)
Section Sum.
Context {X : Type}.
Variables (S : R) (f : X -> PrimFloat.float) (F : X -> R).
Hypothesis HS : medium S.
Let Q := S * S.
Definition term (x : X) : Prop := number (f x) /\ Rabs (val (f x) - F x) <= 17 * (U * Q) /\ 0 <= F x <= 15 / 10 * Q.
Definition sum_error (n : R) : R := (17 * n + 8 / 10 * (n * n + n)) * (U * Q).
Lemma sum_err_pos n : 0 <= n -> 0 <= sum_error n.
Proof. intros Hn. destruct (US_small S HS) as (_ & _ & _ & UQ). fold Q in UQ. unfold sum_error. apply Rmult_le_pos; [|lra]. pose proof (Rle_0_sqr n) as P. unfold Rsqr in P. lra. Qed.
Lemma sum_err_small n : 0 <= n <= 1000 -> sum_error n <= / 100 * n * Q.
Proof.
  intros Hn. destruct (US_small S HS) as (_ & Q0 & _ & UQ). fold Q in Q0, UQ. unfold sum_error.
  assert (n * n <= 1000 * n) as K by (apply Rmult_le_compat_r; lra).
  apply Rle_trans with ((818 * n) * (/ 1000000 * Q)).
  - apply Rmult_le_compat; try lra. pose proof (Rle_0_sqr n) as P. unfold Rsqr in P. lra.
  - replace (818 * n * (/ 1000000 * Q)) with (818 / 1000000 * (n * Q)) by field. replace (/ 100 * n * Q) with (/ 100 * (n * Q)) by ring.
    assert (0 <= n * Q) by (apply Rmult_le_pos; lra). lra.
Qed.
Lemma step_err a x A n : 0 <= n <= 999 -> number a -> Rabs (val a - A) <= sum_error n -> 0 <= A <= 15 / 10 * n * Q -> term x ->
  number (a + f x)%float /\ Rabs (val (a + f x)%float - (A + F x)) <= sum_error (n + 1) /\ 0 <= A + F x <= 15 / 10 * (n + 1) * Q.
Proof.
  intros Hn Na Ea BA (Nx & Ex & BX). destruct (US_small S HS) as (_ & Q0 & _ & UQ). fold Q in Q0, UQ.
  pose proof (sum_err_small n ltac:(lra)) as Sm. assert (0 <= n * Q) as nQ by (apply Rmult_le_pos; lra).
  replace (15 / 10 * n * Q) with (15 / 10 * (n * Q)) in BA by ring. replace (/ 100 * n * Q) with (/ 100 * (n * Q)) in Sm by ring.
  destruct (SS_sized (16 / 10 * (n + 1)) S ltac:(lra) HS) as [L1 L2]. fold Q in L1, L2.
  apply Rabs_def2_le in Ea. apply Rabs_def2_le in Ex.
  destruct (add_err a (f x) (16 / 10 * (n + 1) * Q) Na Nx L1 L2) as [N E].
  { replace (16 / 10 * (n + 1) * Q) with (16 / 10 * (n * Q) + 16 / 10 * Q) by field. apply Rabs_le. lra. }
  split; [exact N|]. split.
  - replace (U * (16 / 10 * (n + 1) * Q)) with (16 / 10 * (n + 1) * (U * Q)) in E by ring. apply Rabs_def2_le in E.
    assert (sum_error (n + 1) = sum_error n + 17 * (U * Q) + 16 / 10 * (n + 1) * (U * Q)) as -> by (unfold sum_error; field). apply Rabs_le. lra.
  - replace (15 / 10 * (n + 1) * Q) with (15 / 10 * (n * Q) + 15 / 10 * Q) by field. lra.
Qed.
Lemma fold_err l : forall a A n, 0 <= n -> n + INR (length l) <= 1000 -> number a -> Rabs (val a - A) <= sum_error n -> 0 <= A <= 15 / 10 * n * Q ->
  (forall x, In x l -> term x) ->
  let b := fold_left (fun a x => (a + f x)%float) l a in let B := A + sum (map F l) in let m := n + INR (length l) in
  number b /\ Rabs (val b - B) <= sum_error m /\ 0 <= B <= 15 / 10 * m * Q.
Proof.
  induction l as [|x l IH]; intros a A n Hn Hl Na Ea BA HT; cbv zeta.
  - cbn [fold_left map length sum fold_right INR]. rewrite !Rplus_0_r. auto.
  - cbn [fold_left map]. change (length (x :: l)) with (Datatypes.S (length l)) in *. rewrite S_INR in *. pose proof (pos_INR (length l)) as PL.
    destruct (step_err a x A n ltac:(lra) Na Ea BA (HT x (or_introl eq_refl))) as (N & E & B).
    destruct (IH (a + f x)%float (A + F x) (n + 1) ltac:(lra) ltac:(lra) N E B (fun y Hy => HT y (or_intror Hy))) as (N' & E' & B').
    replace (A + sum (F x :: map F l)) with (A + F x + sum (map F l)) by (rewrite sum_cons; ring).
    replace (n + (INR (length l) + 1)) with (n + 1 + INR (length l)) by ring. auto.
Qed.
Lemma zero_start : number (n0 : PrimFloat.float) /\ Rabs (val (n0 : PrimFloat.float) - 0) <= sum_error 0 /\ 0 <= 0 <= 15 / 10 * 0 * Q.
Proof.
  assert (number (n0 : PrimFloat.float) /\ val (n0 : PrimFloat.float) = 0) as [N V].
  { rewrite number_SF, val_SF. replace (Prim2SF n0) with (S754_zero false) by (vm_compute; reflexivity). split; reflexivity. }
  split; [exact N|]. rewrite V. unfold sum_error. replace (0 - 0) with 0 by ring. rewrite Rabs_R0. split; lra.
Qed.
End Sum.

(** ** Comparing two sums *)
Section Compare.
Variables (S : R).
Hypothesis HS : medium S.
Let Q := S * S.
Lemma compare_err (a o : PrimFloat.float) A O m n : 0 <= m <= n -> 1 <= n <= 1000 -> number a -> number o ->
  Rabs (val a - A) <= sum_error S m -> Rabs (val o - O) <= sum_error S n -> 0 <= A <= 15 / 10 * m * Q -> 0 <= O <= 15 / 10 * n * Q ->
  number (PrimFloat.abs (a - o)) /\ Rabs (val (PrimFloat.abs (a - o)) - Rabs (A - O)) <= area_error n S.
Proof.
  intros Hm Hn Na No Ea Eo BA BO. destruct (US_small S HS) as (_ & Q0 & _ & UQ). fold Q in Q0, UQ.
  pose proof (sum_err_small S HS n ltac:(lra)) as Sn. fold Q in Sn.
  assert (sum_error S m <= sum_error S n) as Mn.
  { unfold sum_error. fold Q. apply Rmult_le_compat_r; [lra|]. assert (m * m <= n * n) by (apply Rmult_le_compat; lra). lra. }
  assert (15 / 10 * m * Q <= 15 / 10 * n * Q) as Mq by (apply Rmult_le_compat_r; lra).
  destruct (SS_sized (32 / 10 * n) S ltac:(lra) HS) as [L1 L2]. fold Q in L1, L2. apply Rabs_def2_le in Ea. apply Rabs_def2_le in Eo.
  assert (0 <= n * Q) by (apply Rmult_le_pos; lra).
  replace (15 / 10 * n * Q) with (15 / 10 * (n * Q)) in * by ring. replace (/ 100 * n * Q) with (/ 100 * (n * Q)) in * by ring.
  destruct (sub_err a o (32 / 10 * n * Q) Na No L1 L2) as [N E].
  { replace (32 / 10 * n * Q) with (32 / 10 * (n * Q)) by ring. apply Rabs_le. lra. }
  destruct (f_abs _ N) as [Nb Vb]. split; [exact Nb|]. rewrite Vb. eapply Rle_trans; [apply Rabs_triang_inv2|].
  apply Rabs_def2_le in E. replace (U * (32 / 10 * n * Q)) with (32 / 10 * n * (U * Q)) in E by ring.
  assert (2 * sum_error S n + 32 / 10 * n * (U * Q) <= area_error n S) as T.
  { unfold area_error. rewrite two_p. change (bpow radix2 (-53)) with U. fold Q. unfold sum_error. fold Q.
    replace (2 * ((17 * n + 8 / 10 * (n * n + n)) * (U * Q)) + 32 / 10 * n * (U * Q)) with ((16 / 10 * (n * n) + 388 / 10 * n) * (U * Q)) by field.
    rewrite (Rmult_assoc _ U Q). apply Rmult_le_compat_r; [lra|]. pose proof (Rle_0_sqr n) as P. unfold Rsqr in P. lra. }
  apply Rabs_le. lra.
Qed.
Lemma square_tol e : tolerance e -> number (e * e)%float /\ Rabs (val (e * e)%float - val e * val e) <= powerRZ 2 (-52) * (val e * val e).
Proof.
  intros [Ne [A B]]. rewrite two_p in A, B. pose proof (bpow_gt_0 radix2 (-400)) as P0.
  destruct (square_mixed e Ne) as (Nq & _ & Eq).
  { rewrite Rabs_pos_eq by lra. eapply Rle_trans; [exact B|]. apply bpow_le. lia. }
  split; [exact Nq|]. eapply Rle_trans; [exact Eq|].
  assert (bpow radix2 (-800) <= val e * val e) as L by (change (-800)%Z with (-400 + -400)%Z; rewrite bpow_plus; apply Rmult_le_compat; lra).
  assert (tiny <= U * (val e * val e)) as T.
  { apply Rle_trans with (U * bpow radix2 (-800)); [|apply Rmult_le_compat_l; [unfold U; lra|exact L]].
    unfold tiny. change U with (bpow radix2 (-53)). rewrite <- bpow_plus. apply bpow_le. lia. }
  rewrite two_p. replace (bpow radix2 (-52)) with (2 * U) by (change U with (/ 9007199254740992); change (bpow radix2 (-52)) with (/ 4503599627370496); lra). lra.
Qed.
Lemma test_decides (d e : PrimFloat.float) D r : tolerance e -> number d -> Rabs (val d - D) <= r -> decides (d <? e * e)%float D (val e * val e) r.
Proof.
  intros He Nd Ed. destruct (square_tol e He) as [Nq Eq]. destruct He as [_ [A _]]. rewrite two_p in A. pose proof (bpow_gt_0 radix2 (-400)) as P0.
  assert (0 < val e * val e) as Q0 by (apply Rmult_lt_0_compat; lra). set (q := val e * val e) in *.
  assert (powerRZ 2 (-52) * q < powerRZ 2 (-50) * q) as K.
  { apply Rmult_lt_compat_r; [exact Q0|]. rewrite !two_p. change (bpow radix2 (-50)) with (/ 1125899906842624). change (bpow radix2 (-52)) with (/ 4503599627370496). lra. }
  apply Rabs_def2_le in Ed. apply Rabs_def2_le in Eq. split; intros H.
  - apply f_ltb; [exact Nd|exact Nq|]. lra.
  - apply f_ltb_false; [exact Nd|exact Nq|]. lra.
Qed.
End Compare.

Lemma tri_area_eq a b c : triangle_area a b c = area3 a b c.
Proof. unfold triangle_area, area3. replace (xprod (psub b a) (psub c a)) with (cross (psub b a) (psub c a)); [field|]. unfold cross, xprod. rn. reflexivity. Qed.
Lemma seen_areas cs p : area_seen cs p = areas cs p.
Proof. unfold area_seen, areas. f_equal. apply map_ext. intros [a b]. apply tri_area_eq. Qed.
Lemma fan_areas N cs : convex_ccw N cs -> area_fan cs = shoelace N cs.
Proof.
  intros HC. rewrite <- (fan_total N cs HC). unfold fan_area, area_fan. destruct cs as [|c0 r]; [reflexivity|]. cbn [tl nth]. f_equal. apply map_ext. intros [a b]. apply tri_area_eq.
Qed.

Definition fterm (t : V3 PrimFloat.float * V3 PrimFloat.float * V3 PrimFloat.float) : PrimFloat.float := let '(a, b, c) := t in t_area (make_tri a b c).
Definition rterm (t : V3 PrimFloat.float * V3 PrimFloat.float * V3 PrimFloat.float) : R := let '(a, b, c) := t in triangle_area (val3 a) (val3 b) (val3 c).
Lemma term_ok S ps a b c : medium S -> spread S ps -> In a ps -> In b ps -> In c ps -> term S fterm rterm (a, b, c).
Proof.
  intros HS Hp Ha Hb Hc. assert (spread S [a; b; c]) as H by (apply (spread_sub S ps _ Hp); intros p [<-|[<-|[<-|[]]]]; assumption).
  destruct (area_err S HS a b c H) as [N E]. split; [exact N|]. split; [exact E|]. exact (area_bound S HS a b c H).
Qed.

(** ** Triangles *)
Lemma one_err S : medium S -> 17 * (U * (S * S)) <= sum_error S 1.
Proof. intros HS. destruct (US_small S HS) as (_ & _ & _ & UQ). unfold sum_error. lra. Qed.
Lemma tri_core S a b c p : medium S -> spread S [a; b; c; p] ->
  let other := (n0 + t_area (make_tri a b p) + t_area (make_tri b c p) + t_area (make_tri c a p))%float in
  number (PrimFloat.abs (t_area (make_tri a b c) - other)) /\
  Rabs (val (PrimFloat.abs (t_area (make_tri a b c) - other)) - Rabs (triangle_area (val3 a) (val3 b) (val3 c) - area_seen [val3 a; val3 b; val3 c] (val3 p))) <= area_error 3 S.
Proof.
  intros HS Hp other. destruct (zero_start S) as (N0 & E0 & B0).
  assert (forall x y z, In x [a;b;c;p] -> In y [a;b;c;p] -> In z [a;b;c;p] -> term S fterm rterm (x, y, z)) as T by (intros; apply (term_ok S [a;b;c;p]); assumption).
  destruct (fold_err S fterm rterm HS [(a,b,p);(b,c,p);(c,a,p)] n0 0 0) as (No & Eo & Bo); [lra|cbn; lra|exact N0|exact E0|exact B0|..].
  { intros x [<-|[<-|[<-|[]]]]; apply T; cbn; auto. }
  destruct (T a b c ltac:(cbn; auto) ltac:(cbn; auto) ltac:(cbn; auto)) as (Na & Ea & Ba).
  cbn [fold_left fterm map rterm length] in *. replace (0 + INR 3) with 3 in * by (cbn; lra).
  assert (0 + sum [triangle_area (val3 a) (val3 b) (val3 p); triangle_area (val3 b) (val3 c) (val3 p); triangle_area (val3 c) (val3 a) (val3 p)] = area_seen [val3 a; val3 b; val3 c] (val3 p)) as K
    by (unfold area_seen; cbn [edges chain firstn app map fst snd]; ring).
  rewrite K in Eo, Bo. apply (compare_err S HS _ _ _ _ 1 3); try lra; try assumption.
  eapply Rle_trans; [exact Ea|apply one_err, HS].
Qed.
Lemma tri_decides S a b c p e : medium S -> spread S [a; b; c; p] -> tolerance e ->
  decides (tri_contains PrimFloat.abs (make_tri a b c) p e false) (Rabs (triangle_area (val3 a) (val3 b) (val3 c) - area_seen [val3 a; val3 b; val3 c] (val3 p))) (val e * val e) (area_error 3 S).
Proof. intros HS Hp He. destruct (tri_core S a b c p HS Hp) as [N E]. exact (test_decides _ e _ _ He N E). Qed.

(** ** Quadrilaterals *)
Lemma quad_core S p0 p1 p2 p3 p : medium S -> spread S [p0; p1; p2; p3; p] ->
  let cs := [p0; p1; p3; p2] in
  let other := (n0 + t_area (make_tri p0 p1 p) + t_area (make_tri p1 p3 p) + t_area (make_tri p3 p2 p) + t_area (make_tri p2 p0 p))%float in
  let area := q_area (make_quad p0 p1 p2 p3) in
  (number area /\ Rabs (val area - area_fan (map val3 cs)) <= area_error 4 S) /\
  number (PrimFloat.abs (area - other)) /\
  Rabs (val (PrimFloat.abs (area - other)) - Rabs (area_fan (map val3 cs) - area_seen (map val3 cs) (val3 p))) <= area_error 4 S.
Proof.
  intros HS Hp cs other area. destruct (zero_start S) as (N0 & E0 & B0). set (ps := [p0; p1; p2; p3; p]) in *.
  assert (forall x y z, In x ps -> In y ps -> In z ps -> term S fterm rterm (x, y, z)) as T by (intros; apply (term_ok S ps); assumption).
  destruct (fold_err S fterm rterm HS [(p0,p1,p);(p1,p3,p);(p3,p2,p);(p2,p0,p)] n0 0 0) as (No & Eo & Bo); [lra|cbn; lra|exact N0|exact E0|exact B0|..].
  { intros x [<-|[<-|[<-|[<-|[]]]]]; apply T; cbn; auto 10. }
  destruct (T p0 p1 p3 ltac:(cbn; auto 10) ltac:(cbn; auto 10) ltac:(cbn; auto 10)) as (Na & Ea & Ba).
  assert (Rabs (val (fterm (p0,p1,p3)) - rterm (p0,p1,p3)) <= sum_error S 1) as Ea1 by (eapply Rle_trans; [exact Ea|apply one_err, HS]).
  assert (0 <= rterm (p0,p1,p3) <= 15 / 10 * 1 * (S * S)) as Ba1 by lra.
  destruct (step_err S fterm rterm HS (fterm (p0,p1,p3)) (p0,p3,p2) (rterm (p0,p1,p3)) 1 ltac:(lra) Na Ea1 Ba1 (T p0 p3 p2 ltac:(cbn; auto 10) ltac:(cbn; auto 10) ltac:(cbn; auto 10))) as (Nq & Eq & Bq).
  cbn [fold_left fterm map rterm length] in *. replace (0 + INR 4) with 4 in * by (cbn; lra). replace (1 + 1) with 2 in * by ring.
  assert (0 + sum [triangle_area (val3 p0) (val3 p1) (val3 p); triangle_area (val3 p1) (val3 p3) (val3 p); triangle_area (val3 p3) (val3 p2) (val3 p); triangle_area (val3 p2) (val3 p0) (val3 p)] = area_seen (map val3 cs) (val3 p)) as K
    by (unfold area_seen, cs; cbn [map edges chain firstn app fst snd]; ring).
  assert (triangle_area (val3 p0) (val3 p1) (val3 p3) + triangle_area (val3 p0) (val3 p3) (val3 p2) = area_fan (map val3 cs)) as K2
    by (unfold area_fan, cs; cbn [map chain fst snd sum fold_right]; ring).
  rewrite K in Eo, Bo. rewrite K2 in Eq, Bq. split; [split; [exact Nq|]|].
  - eapply Rle_trans; [exact Eq|]. destruct (US_small S HS) as (_ & Q0 & _ & UQ). unfold sum_error, area_error. rewrite two_p. change (bpow radix2 (-53)) with U. lra.
  - apply (compare_err S HS _ _ _ _ 2 4); try lra; assumption.
Qed.

(** ** Polygons *)
Lemma chain_len (l : list pt) : length (chain l) = (length l - 1)%nat.
Proof. rewrite <- (chain_seq l zero3), map_length, seq_length. reflexivity. Qed.
Lemma map_val_nth (cs : list (V3 PrimFloat.float)) i : (i < length cs)%nat -> val3 (nth i cs origin) = nth i (map val3 cs) zero3.
Proof. intros H. rewrite (nth_indep (map val3 cs) zero3 (val3 origin)) by (rewrite map_length; exact H). symmetry. apply map_nth. Qed.
Lemma poly_fold S (g : nat -> V3 PrimFloat.float * V3 PrimFloat.float * V3 PrimFloat.float) l : medium S -> (length l <= 1000)%nat ->
  (forall i, In i l -> term S fterm rterm (g i)) ->
  let b := fold_left (fun a i => (a + fterm (g i))%float) l n0 in
  number b /\ Rabs (val b - sum (map (fun i => rterm (g i)) l)) <= sum_error S (INR (length l)) /\ 0 <= sum (map (fun i => rterm (g i)) l) <= 15 / 10 * INR (length l) * (S * S).
Proof.
  intros HS Hl HT. destruct (zero_start S) as (N0 & E0 & B0).
  destruct (fold_err S (fun i => fterm (g i)) (fun i => rterm (g i)) HS l n0 0 0) as (No & Eo & Bo); [lra| |exact N0|exact E0|exact B0|exact HT|].
  { rewrite Rplus_0_l. apply le_INR in Hl. replace (INR 1000) with 1000 in Hl by (rewrite INR_IZR_INZ; f_equal). exact Hl. }
  rewrite !Rplus_0_l in *. auto.
Qed.
Lemma fold_map {X Y Z} (f : Z -> Y -> Z) (g : X -> Y) l : forall a, fold_left f (map g l) a = fold_left (fun a x => f a (g x)) l a.
Proof. induction l as [|x l IH]; intros a; [reflexivity|]. cbn [map fold_left]. apply IH. Qed.
Lemma triangulate_seq (cs : list (V3 PrimFloat.float)) : (3 <= length cs)%nat ->
  triangulate cs = map (fun i => make_tri (at_ cs 0) (at_ cs i) (at_ cs (S i))) (seq 1 (length cs - 2)).
Proof. intros H. unfold triangulate. replace (length cs - 2)%nat with (S (length cs - 3)) by lia. reflexivity. Qed.
Lemma poly_core S cs p pg : medium S -> spread S (p :: cs) -> (length cs <= 1000)%nat -> make_poly cs = Ok pg ->
  let n := INR (length cs) in
  (number (po_area pg) /\ Rabs (val (po_area pg) - area_fan (map val3 cs)) <= area_error n S) /\
  number (PrimFloat.abs (po_area pg - poly_other_area (po_cs pg) p)) /\
  Rabs (val (PrimFloat.abs (po_area pg - poly_other_area (po_cs pg) p)) - Rabs (area_fan (map val3 cs) - area_seen (map val3 cs) (val3 p))) <= area_error n S.
Proof.
  intros HS Hp Hl HM n. unfold make_poly in HM. destruct (Nat.ltb_spec (length cs) 3) as [|H3]; [discriminate|].
  match type of HM with Ok ?x = _ => assert (pg = x) as -> by congruence end. clear HM. cbv zeta. cbn [po_area po_cs].
  assert (n <= 1000) as Hn by (apply le_INR in Hl; replace (INR 1000) with 1000 in Hl by (rewrite INR_IZR_INZ; f_equal); exact Hl).
  assert (3 <= n) as Hn3 by (apply le_INR in H3; cbn in H3; unfold n; lra).
  assert (forall i, (i < length cs)%nat -> In (at_ cs i) (p :: cs)) as I by (intros i Hi; right; apply nth_In, Hi).
  assert (forall x y z, In x (p :: cs) -> In y (p :: cs) -> In z (p :: cs) -> term S fterm rterm (x, y, z)) as T by (intros; apply (term_ok S (p :: cs)); assumption).
  assert (map val3 cs <> []) as Ne by (destruct cs; [cbn in H3; lia|discriminate]).
  rewrite triangulate_seq, fold_map by exact H3. set (area := fold_left _ (seq 1 (length cs - 2)) n0).
  destruct (poly_fold S (fun i => (at_ cs 0, at_ cs i, at_ cs (Datatypes.S i))) (seq 1 (length cs - 2)) HS) as (Na & Ea & Ba).
  { rewrite seq_length. lia. }
  { intros i Hi. apply in_seq in Hi. apply T; apply I; lia. }
  cbn [fterm] in Na, Ea. change (fold_left _ (seq 1 (length cs - 2)) n0) with area in Na, Ea. rewrite seq_length in *.
  replace (INR (length cs - 2)) with (n - 2) in * by (rewrite minus_INR by lia; cbn; unfold n; lra).
  match type of Ea with context [sum ?l] => assert (sum l = area_fan (map val3 cs)) as KA end.
  { unfold rterm. unfold area_fan. destruct cs as [|c0 r] eqn:Ec; [cbn in H3; lia|]. cbn [map]. rewrite <- (chain_seq (map val3 r) zero3), map_map, map_length. f_equal.
    cbn [length]. replace (Datatypes.S (length r) - 2)%nat with (length r - 1)%nat by lia. rewrite <- seq_shift, map_map. apply map_ext_in. intros i Hi. apply in_seq in Hi.
    cbn [fst snd]. rewrite <- !map_val_nth by (cbn in H3; lia). reflexivity. }
  rewrite KA in Ea, Ba. clear KA.
  unfold poly_other_area. cbv zeta. set (os := fold_left _ (seq 0 (length cs - 1)) n0).
  destruct (poly_fold S (fun i => (at_ cs i, at_ cs (Datatypes.S i), p)) (seq 0 (length cs - 1)) HS) as (No & Eo & Bo).
  { rewrite seq_length. lia. }
  { intros i Hi. apply in_seq in Hi. apply T; [apply I; lia..|left; reflexivity]. }
  cbn [fterm] in No, Eo. change (fold_left _ (seq 0 (length cs - 1)) n0) with os in No, Eo. rewrite seq_length in *.
  replace (INR (length cs - 1)) with (n - 1) in * by (rewrite minus_INR by lia; cbn; unfold n; lra).
  match type of Eo with context [sum ?l] => set (O1 := sum l) in * end.
  destruct (step_err S fterm rterm HS os (at_ cs (length cs - 1), at_ cs 0, p) O1 (n - 1) ltac:(lra) No Eo Bo) as (Nt & Et & Bt).
  { apply T; [apply I; lia..|left; reflexivity]. }
  replace (n - 1 + 1) with n in * by ring.
  assert (O1 + rterm (at_ cs (length cs - 1), at_ cs 0, p) = area_seen (map val3 cs) (val3 p)) as KO.
  { unfold area_seen. rewrite (edges_eq _ zero3 Ne), map_app, sum_app. cbn [map sum fold_right fst snd]. rewrite Rplus_0_r. f_equal.
    - unfold O1. rewrite <- (chain_seq (map val3 cs) zero3), map_map, map_length. f_equal. apply map_ext_in. intros i Hi. apply in_seq in Hi. cbn [rterm fst snd].
      unfold at_. rewrite !map_val_nth by lia. reflexivity.
    - cbn [rterm]. unfold at_. rewrite !map_val_nth by lia. rewrite <- nth_last, map_length. f_equal. destruct cs; [cbn in H3; lia|reflexivity]. }
  rewrite KO in Et, Bt. cbn [fterm] in Nt, Et. split; [split; [exact Na|]|].
  - eapply Rle_trans; [exact Ea|]. destruct (US_small S HS) as (_ & Q0 & _ & UQ). unfold sum_error, area_error. rewrite two_p. change (bpow radix2 (-53)) with U.
    replace ((2 * n * n + 40 * n) * U * (S * S)) with ((2 * n * n + 40 * n) * (U * (S * S))) by ring. apply Rmult_le_compat_r; [lra|]. pose proof (Rle_0_sqr n) as P. unfold Rsqr in P. lra.
  - apply (compare_err S HS _ _ _ _ (n - 2) n); try lra; assumption.
Qed.
