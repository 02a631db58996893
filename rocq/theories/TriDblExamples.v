(** Examples for C105. *)

From Coq Require Import ZArith Reals List Lra Lia Psatz Bool.
From Flocq Require Import Core.Core IEEE754.BinarySingleNaN IEEE754.PrimFloat.
From Coq Require Import Floats.
From Verif Require Import Base NumModel VecModel LinModel PolyModel GeoSpec PolySpec DblSpec GeoLemmas PolyExamples
  DblLemmas DblProofs DblExamples LinDblSpec LinDblBase LinDblProofs LinDblExamples TriDblSpec TriDblBase TriDblProofs TriDblHull.
Import ListNotations.
Local Open Scope R_scope.

(** a triangle, two points, and the quadrilateral with the second of them *)
Definition tr_a : V3 float := mkV3 0%float 0%float 0%float.
Definition tr_b : V3 float := mkV3 872%float 295%float 0%float.
Definition tr_c : V3 float := mkV3 227%float 993%float 0%float.
Definition tr_in : V3 float := mkV3 0x1.079999999999ap+8%float 0x1.03e6666666666p+9%float 0%float.
Definition tr_out : V3 float := mkV3 872%float 993%float 0%float.
Lemma tr_vals : (number 872%float /\ val 872%float = 872) /\ (number 295%float /\ val 295%float = 295) /\ (number 227%float /\ val 227%float = 227) /\ (number 993%float /\ val 993%float = 993).
Proof.
  split; [|split; [|split]].
  - destruct (int_val 872%float 7670193115365376 (-43) ltac:(vm_compute; reflexivity)) as [N V]. split; [exact N|]. rewrite V. change (bpow radix2 (-43)) with (/ 8796093022208). lra.
  - destruct (int_val 295%float 5189694883102720 (-44) ltac:(vm_compute; reflexivity)) as [N V]. split; [exact N|]. rewrite V. change (bpow radix2 (-44)) with (/ 17592186044416). lra.
  - destruct (int_val 227%float 7986852464164864 (-45) ltac:(vm_compute; reflexivity)) as [N V]. split; [exact N|]. rewrite V. change (bpow radix2 (-45)) with (/ 35184372088832). lra.
  - destruct (int_val 993%float 8734520371052544 (-43) ltac:(vm_compute; reflexivity)) as [N V]. split; [exact N|]. rewrite V. change (bpow radix2 (-43)) with (/ 8796093022208). lra.
Qed.
Definition in_x : R := 4637300241308058 * / 17592186044416.
Definition in_y : R := 4572209152943718 * / 8796093022208.
Lemma tr_in_vals : (number (vx tr_in) /\ val (vx tr_in) = in_x) /\ (number (vy tr_in) /\ val (vy tr_in) = in_y).
Proof.
  split.
  - destruct (int_val (vx tr_in) 4637300241308058 (-44) ltac:(vm_compute; reflexivity)) as [N V]. split; [exact N|]. rewrite V. reflexivity.
  - destruct (int_val (vy tr_in) 4572209152943718 (-43) ltac:(vm_compute; reflexivity)) as [N V]. split; [exact N|]. rewrite V. reflexivity.
Qed.
Lemma tr_pts : val3 tr_a = mkV3 0 0 0 /\ val3 tr_b = mkV3 872 295 0 /\ val3 tr_c = mkV3 227 993 0 /\ val3 tr_in = mkV3 in_x in_y 0 /\ val3 tr_out = mkV3 872 993 0.
Proof.
  destruct tr_vals as ([_ V1] & [_ V2] & [_ V3'] & [_ V4]). destruct tr_in_vals as ([_ V5] & [_ V6]). destruct zero_val as [_ V0].
  unfold val3. rewrite V5, V6. unfold tr_a, tr_b, tr_c, tr_in, tr_out. cbn [vx vy vz]. rewrite V0, V1, V2, V3', V4. auto.
Qed.
Lemma tr_medium : medium 1024.
Proof. unfold medium. rewrite !two_p. change 1024 with (bpow radix2 10). split; apply bpow_le; lia. Qed.
Lemma tr_spread : spread 1024 [tr_in; tr_a; tr_b; tr_out; tr_c].
Proof.
  destruct tr_vals as ([N1 _] & [N2 _] & [N3 _] & [N4 _]). destruct tr_in_vals as ([N5 _] & [N6 _]). destruct zero_val as [N0 _].
  destruct tr_pts as (A & B & C & D & E). split.
  - intros p [<-|[<-|[<-|[<-|[<-|[]]]]]]; (split; [|split]); assumption.
  - assert (forall p, In p [tr_in; tr_a; tr_b; tr_out; tr_c] -> 0 <= val (vx p) <= 1000 /\ 0 <= val (vy p) <= 1000 /\ 0 <= val (vz p) <= 1000) as K.
    { intros p Hp. change (val (vx p)) with (vx (val3 p)). change (val (vy p)) with (vy (val3 p)). change (val (vz p)) with (vz (val3 p)).
      destruct Hp as [<-|[<-|[<-|[<-|[<-|[]]]]]]; rewrite ?A, ?B, ?C, ?D, ?E; unfold in_x, in_y; cbn [vx vy vz]; lra. }
    intros p q Hp Hq. destruct (K p Hp) as (? & ? & ?). destruct (K q Hq) as (? & ? & ?). repeat split; apply Rabs_le; lra.
Qed.
Lemma tr_spread_p p : In p [tr_in; tr_out] -> spread 1024 [tr_a; tr_b; tr_c; p].
Proof. intros Hp. apply (spread_sub _ _ _ tr_spread). intros y [<-|[<-|[<-|[<-|[]]]]]; try (cbn; auto 10; fail). destruct Hp as [<-|[<-|[]]]; cbn; auto 10. Qed.
Lemma tr_convex : convex_ccw ez (map val3 [tr_a; tr_b; tr_c]) /\ convex_ccw ez (map val3 [tr_a; tr_b; tr_out; tr_c]).
Proof.
  destruct tr_pts as (A & B & C & _ & E). cbn [map]. rewrite A, B, C, E. split.
  - split; [unfold unit3, dot, ez; cbn [vx vy vz]; ring|]. split.
    { intros a b Ha Hb. destruct Ha as [<-|[<-|[<-|[]]]]; destruct Hb as [<-|[<-|[<-|[]]]]; unfold dot, psub, ez; cbn [vx vy vz]; ring. }
    split; [cbn; lia|]. split; [|unfold orient, det3, psub, ez; cbn [nth vx vy vz]; lra].
    intros i j k Hi Hk. cbn [length] in Hk. assert (i = 0 /\ j = 1 /\ k = 2)%nat as (-> & -> & ->) by lia. unfold orient, det3, psub, ez. cbn [nth vx vy vz]. lra.
  - split; [unfold unit3, dot, ez; cbn [vx vy vz]; ring|]. split.
    { intros a b Ha Hb. destruct Ha as [<-|[<-|[<-|[<-|[]]]]]; destruct Hb as [<-|[<-|[<-|[<-|[]]]]]; unfold dot, psub, ez; cbn [vx vy vz]; ring. }
    split; [cbn; lia|]. split; [|unfold orient, det3, psub, ez; cbn [nth vx vy vz]; lra].
    intros i j k Hi Hk. cbn [length] in Hk.
    assert ((i = 0 /\ j = 1 /\ k = 2) \/ (i = 0 /\ j = 1 /\ k = 3) \/ (i = 0 /\ j = 2 /\ k = 3) \/ (i = 1 /\ j = 2 /\ k = 3))%nat as [(-> & -> & ->)|[(-> & -> & ->)|[(-> & -> & ->)|(-> & -> & ->)]]] by lia;
      unfold orient, det3, psub, ez; cbn [nth vx vy vz]; lra.
Qed.
Lemma tr_hull : hull (map val3 [tr_a; tr_b; tr_c]) (val3 tr_in) /\ hull (map val3 [tr_a; tr_b; tr_out; tr_c]) (val3 tr_in).
Proof.
  assert (forall cs, In (val3 tr_a) cs -> In (val3 tr_b) cs -> In (val3 tr_c) cs -> hull cs (val3 tr_in)) as K.
  { intros cs Ha Hb Hc. destruct tr_pts as (A & B & C & D & _). rewrite A in Ha. rewrite B in Hb. rewrite C in Hc. rewrite D.
    set (t := 57946747294280413 / 80131450664301936). set (s := 15024646999556613 / 23116682218176512).
    apply (hull_between _ (mkV3 0 0 0) (mkV3 (872 - 645 * t) (295 + 698 * t) 0)); [apply hull_corner, Ha| |].
    - apply (hull_between _ (mkV3 872 295 0) (mkV3 227 993 0)); [apply hull_corner, Hb|apply hull_corner, Hc|].
      exists t. split; [unfold t; lra|]. unfold padd, pscale, psub. cbn [vx vy vz]. f_equal; unfold t; lra.
    - exists s. split; [unfold s; lra|]. unfold padd, pscale, psub, in_x, in_y. cbn [vx vy vz]. f_equal; unfold s, t; lra. }
  split; apply K; cbn; auto 10.
Qed.
Lemma tr_inside : (forall n, 3 <= n <= 4 -> n * 1024 * 0 + area_error n 1024 <= (1 - powerRZ 2 (-50)) * (val 0x1p-10%float * val 0x1p-10%float)) /\ dist (val3 tr_in) (val3 tr_in) <= 0.
Proof.
  split.
  - intros n Hn. rewrite (proj2 vmilli). unfold area_error. rewrite !two_p. change (bpow radix2 (-50)) with (/ 1125899906842624). change (bpow radix2 (-53)) with (/ 9007199254740992).
    assert (n * n <= 4 * n) by (apply Rmult_le_compat_r; lra). lra.
  - unfold dist, norm. rewrite <- sqrt_0. apply sqrt_le_1_alt. unfold dot, psub. cbn [vx vy vz]. lra.
Qed.
Lemma tr_beyond : overhang ez (map val3 [tr_a; tr_b; tr_c]) (val3 tr_out) = 450210 /\
  (1 + powerRZ 2 (-50)) * (val 0x1p-10%float * val 0x1p-10%float) + area_error 3 1024 <= 450210.
Proof.
  destruct tr_pts as (A & B & C & _ & E). split.
  - cbn [map]. rewrite A, B, C, E. unfold overhang, edges. cbn [firstn app chain map sum fold_right].
    unfold beyond, orient, det3, psub, ez. cbn [fst snd vx vy vz]. rewrite (Rmax_left 0 (- _)), (Rmax_right 0 (- _)), (Rmax_left 0 (- _)) by lra. lra.
  - rewrite (proj2 vmilli). unfold area_error. rewrite !two_p. change (bpow radix2 (-50)) with (/ 1125899906842624). change (bpow radix2 (-53)) with (/ 9007199254740992). lra.
Qed.
(** a tolerance of 2^-18 is lost in the rounding errors *)
Lemma tr_small : tri_contains PrimFloat.abs (make_tri tr_a tr_b tr_c) tr_in 0x1p-18%float false = false.
Proof. vm_compute. reflexivity. Qed.
Lemma tr_poly : exists pg, make_poly [tr_a; tr_b; tr_out; tr_c] = Ok pg /\ poly_contains pg tr_in 0x1p-10%float false = Ok true /\ exists a, poly_get_area pg = Ok a.
Proof. eexists. split; [reflexivity|]. split; [vm_compute; reflexivity|]. eexists. unfold poly_get_area. replace (po_convex _) with true by (vm_compute; reflexivity). reflexivity. Qed.
Lemma tr_upto : moderate 1024 /\ point_upto 1024 tr_a /\ point_upto 1024 tr_b /\ point_upto 1024 tr_c.
Proof.
  destruct tr_spread as [N _]. destruct tr_pts as (A & B & C & _). split; [|split; [|split]].
  - destruct p_400 as (P & Q & _). split; lra.
  - split; [apply N; cbn; auto|]. unfold within3. change (val (vx tr_a)) with (vx (val3 tr_a)). change (val (vy tr_a)) with (vy (val3 tr_a)). change (val (vz tr_a)) with (vz (val3 tr_a)). rewrite A. cbn [vx vy vz]. repeat split; apply Rabs_le; lra.
  - split; [apply N; cbn; auto|]. unfold within3. change (val (vx tr_b)) with (vx (val3 tr_b)). change (val (vy tr_b)) with (vy (val3 tr_b)). change (val (vz tr_b)) with (vz (val3 tr_b)). rewrite B. cbn [vx vy vz]. repeat split; apply Rabs_le; lra.
  - split; [apply N; cbn; auto 10|]. unfold within3. change (val (vx tr_c)) with (vx (val3 tr_c)). change (val (vy tr_c)) with (vy (val3 tr_c)). change (val (vz tr_c)) with (vz (val3 tr_c)). rewrite C. cbn [vx vy vz]. repeat split; apply Rabs_le; lra.
Qed.
