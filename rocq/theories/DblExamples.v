(** Examples for C98: boxes far from the origin. *)

From Coq Require Import ZArith Reals Lra Lia Bool.
From Flocq Require Import Core.Core IEEE754.BinarySingleNaN IEEE754.PrimFloat.
From Coq Require Import Floats.
From Verif Require Import Base NumModel VecModel LinModel GeoSpec LinSpec DblSpec DblLemmas DblProofs.
Local Open Scope R_scope.

(** unit cubes side by side, at distance x from the origin *)
Definition cube_at (x : float) : box float := mkBox (mkV3 x 0%float 0%float) (mkV3 (x + 1)%float 1%float 1%float).
Definition near1 : box float := cube_at 300000000.
Definition near2 : box float := cube_at 300000001.
Definition far1 : box float := cube_at 3000000000.
Definition far2 : box float := cube_at 3000000001.

Ltac value := match goal with |- context [Prim2SF ?x] => let y := eval vm_compute in (Prim2SF x) in
  replace (Prim2SF x) with y by (vm_compute; reflexivity) end.
Lemma int_val x m e : Prim2SF x = S754_finite false m e -> number x /\ val x = IZR (Zpos m) * bpow radix2 e.
Proof. intros E. rewrite number_SF, val_SF, E. split; reflexivity. Qed.
Lemma zero_val : number 0%float /\ val 0 = 0.
Proof. rewrite number_SF, val_SF. value. split; reflexivity. Qed.
Lemma one_val : number 1%float /\ val 1 = 1.
Proof.
  destruct (int_val 1%float 4503599627370496 (-52) ltac:(vm_compute; reflexivity)) as [N V]. split; [exact N|]. rewrite V.
  change (bpow radix2 (-52)) with (/ 4503599627370496). lra.
Qed.
Lemma near_vals : (number 300000000%float /\ val 300000000 = 300000000) /\ (number 300000001%float /\ val 300000001 = 300000001) /\
  (number 300000002%float /\ val 300000002 = 300000002).
Proof.
  destruct (int_val 300000000%float 5033164800000000 (-24) ltac:(vm_compute; reflexivity)) as [N0 V0].
  destruct (int_val 300000001%float 5033164816777216 (-24) ltac:(vm_compute; reflexivity)) as [N1 V1].
  destruct (int_val 300000002%float 5033164833554432 (-24) ltac:(vm_compute; reflexivity)) as [N2 V2].
  change (bpow radix2 (-24)) with (/ 16777216) in *. rewrite V0, V1, V2. repeat split; try assumption; lra.
Qed.
Lemma far_vals : (number 3000000000%float /\ val 3000000000 = 3000000000) /\ (number 3000000001%float /\ val 3000000001 = 3000000001) /\
  (number 3000000002%float /\ val 3000000002 = 3000000002).
Proof.
  destruct (int_val 3000000000%float 6291456000000000 (-21) ltac:(vm_compute; reflexivity)) as [N0 V0].
  destruct (int_val 3000000001%float 6291456002097152 (-21) ltac:(vm_compute; reflexivity)) as [N1 V1].
  destruct (int_val 3000000002%float 6291456004194304 (-21) ltac:(vm_compute; reflexivity)) as [N2 V2].
  change (bpow radix2 (-21)) with (/ 2097152) in *. rewrite V0, V1, V2. repeat split; try assumption; lra.
Qed.
Lemma near_is : near1 = mkBox (mkV3 300000000 0 0)%float (mkV3 300000001 1 1)%float /\ near2 = mkBox (mkV3 300000001 0 0)%float (mkV3 300000002 1 1)%float.
Proof. split; vm_compute; reflexivity. Qed.
Lemma far_is : far1 = mkBox (mkV3 3000000000 0 0)%float (mkV3 3000000001 1 1)%float /\ far2 = mkBox (mkV3 3000000001 0 0)%float (mkV3 3000000002 1 1)%float.
Proof. split; vm_compute; reflexivity. Qed.

Lemma p_500 : 4000000000 <= powerRZ 2 500.
Proof. rewrite two_p. apply Rle_trans with (bpow radix2 32); [|apply bpow_le; lia]. change (bpow radix2 32) with 4294967296. lra. Qed.
Lemma p_400 : powerRZ 2 (-400) <= 1.
Proof. rewrite two_p. change 1 with (bpow radix2 0). apply bpow_le. lia. Qed.

Lemma near_case : box_number near1 /\ box_number near2 /\ within_box 400000000 near1 /\ within_box 400000000 near2 /\
  has_side near1 1 /\ has_side near2 1 /\
  in_box (val_box near1) (mkV3 300000001 1 1) /\ in_box (val_box near2) (mkV3 300000001 1 1).
Proof.
  destruct near_is as [-> ->]. destruct near_vals as ((N0 & V0) & (N1 & V1) & (N2 & V2)). destruct zero_val as [Z0 W0]. destruct one_val as [Z1 W1].
  unfold box_number, number3, within_box, within3, has_side, in_box, val_box, val3. cbn [b_min b_max vx vy vz]. rewrite V0, V1, V2, W0, W1.
  repeat split; try assumption; try lra; try (rewrite Rabs_pos_eq; lra).
Qed.
Lemma far_case : box_number far1 /\ box_number far2 /\
  in_box (val_box far1) (mkV3 3000000001 1 1) /\ in_box (val_box far2) (mkV3 3000000001 1 1) /\
  do_intersect_default far1 far2 = false /\ do_intersect_default far2 far1 = false /\
  box_contains_default far1 (mkV3 3000000001 1 1)%float = false.
Proof.
  split; [|split; [|split; [|split; [|vm_compute; auto]]]];
  destruct far_is as [F1 F2]; rewrite ?F1, ?F2; destruct far_vals as ((N0 & V0) & (N1 & V1) & (N2 & V2)); destruct zero_val as [Z0 W0]; destruct one_val as [Z1 W1];
  unfold box_number, number3, in_box, val_box, val3; cbn [b_min b_max vx vy vz]; rewrite ?V0, ?V1, ?V2, ?W0, ?W1;
  repeat split; try assumption; try lra.
Qed.
Lemma absorbed_case : number 3000000000%float /\ number 3000000001%float /\ number 3000000002%float /\
  val 3000000000 < val 3000000001 <= val 3000000002 /\ (3000000001 - 0x1p-23)%float = 3000000001%float /\ 0 < val 0x1p-23%float.
Proof.
  destruct far_vals as ((N0 & V0) & (N1 & V1) & (N2 & V2)). rewrite V0, V1, V2. repeat split; try assumption; try lra.
  destruct (int_val 0x1p-23%float 4503599627370496 (-75) ltac:(vm_compute; reflexivity)) as [_ ->].
  apply Rmult_lt_0_compat; [lra|apply bpow_gt_0].
Qed.
