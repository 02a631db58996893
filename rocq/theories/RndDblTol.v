(** C106: default tolerances and the statements for the shapes. *)

From Coq Require Import ZArith Reals Lra Lia Psatz Bool.
From Flocq Require Import Core.Core IEEE754.BinarySingleNaN IEEE754.PrimFloat.
From Coq Require Import Floats.
From Verif Require Import Base NumModel VecModel LinModel RoundModel PolyModel DistModel GeoSpec LinSpec DblSpec GeoLemmas
  DblLemmas DblProofs DblLen DblEq LinDblSpec LinDblBase LinDblFoot LinDblProofs LinDblSeg LinDblDist RndDblSpec RndDblProofs.
Local Open Scope R_scope.

Section Tol.
Variables (k x : PrimFloat.float) (K X M : R).
Hypotheses (HK : / 100000000 <= K <= / 1000) (HX : bpow radix2 (-300) <= X) (HM : X <= 2 * M) (H4 : M <= bpow radix2 400).
Hypotheses (Ek : Rabs (val k - K) <= 2 * U * K) (Ex : Rabs (val x - X) <= U * X).
Lemma tol_product z : (Rabs (val k * val x) <= bpow radix2 1023 -> number z /\ val z = rnd (val k * val x)) -> tolerance z /\ Rabs (val z - K * X) <= 8 * U * (K * X).
Proof.
  intros HZ. pose proof (bpow_gt_0 radix2 (-300)) as P3. assert (0 < K * X) as KX by (apply Rmult_lt_0_compat; lra).
  assert (Rabs (val k * val x - K * X) <= 4 * U * (K * X)) as E.
  { replace (val k * val x - K * X) with (K * (val x - X) + (val k - K) * val x) by ring. eapply Rle_trans; [apply Rabs_triang|]. rewrite !Rabs_mult, (Rabs_pos_eq K) by lra.
    assert (Rabs (val x) <= (1 + U) * X) as Bx by (apply Rabs_def2_le in Ex; unfold U in *; apply Rabs_le; lra).
    assert (Rabs (val k - K) * Rabs (val x) <= 2 * U * K * ((1 + U) * X)) as E1 by (apply Rmult_le_compat; try apply Rabs_pos; assumption).
    assert (K * Rabs (val x - X) <= K * (U * X)) as E2 by (apply Rmult_le_compat_l; [lra|exact Ex]).
    replace (2 * U * K * ((1 + U) * X)) with (2 * U * (1 + U) * (K * X)) in E1 by ring. replace (K * (U * X)) with (U * (K * X)) in E2 by ring. unfold U in *. lra. }
  assert (/ 100000000 * X <= K * X) as L1 by (apply Rmult_le_compat_r; lra). assert (K * X <= / 1000 * X) as L2 by (apply Rmult_le_compat_r; lra).
  assert (bpow radix2 (-400) <= bpow radix2 (-60) * X) as B3.
  { apply Rle_trans with (bpow radix2 (-60) * bpow radix2 (-300)); [rewrite <- bpow_plus; apply bpow_le; lia|]. apply Rmult_le_compat_l; [apply bpow_ge_0|exact HX]. }
  change (bpow radix2 (-60)) with (/ 1152921504606846976) in B3. assert (bpow radix2 (-1000) <= bpow radix2 (-400)) as B4 by (apply bpow_le; lia).
  assert (bpow radix2 403 <= bpow radix2 1000) as B5 by (apply bpow_le; lia). assert (bpow radix2 403 = 8 * bpow radix2 400) as B6 by (change 403%Z with (3 + 400)%Z; rewrite bpow_plus; reflexivity).
  pose proof (bpow_gt_0 radix2 400) as P4.
  assert (Rabs (val k * val x) <= 2 * (K * X)) as Bz by (apply Rabs_def2_le in E; unfold U in *; apply Rabs_le; lra).
  assert (bpow radix2 1000 <= bpow radix2 1023) as B7 by (apply bpow_le; lia). destruct HZ as [Ne Ez]; [lra|].
  pose proof (rnd_err (val k * val x) (2 * (K * X)) ltac:(lra) Bz) as Ee. rewrite <- Ez in Ee.
  assert (Rabs (val z - K * X) <= 8 * U * (K * X)) as F by (apply Rabs_def2_le in E; apply Rabs_def2_le in Ee; apply Rabs_le; lra).
  split; [|exact F]. split; [exact Ne|]. unfold moderate. rewrite !two_p. apply Rabs_def2_le in F. unfold U in F.
  split; lra.
Qed.
End Tol.

Lemma half_conf : number (confusion * nlit 1 2 : PrimFloat.float)%float /\ Rabs (val (confusion * nlit 1 2)%float - / 20000000) <= 2 * U * / 20000000.
Proof.
  rewrite number_SF, val_SF. replace (Prim2SF (confusion * nlit 1 2)%float) with (S754_finite false 7555786372591432 (-77)) by (vm_compute; reflexivity).
  split; [reflexivity|]. unfold SF2R, F2R. cbn [Fnum Fexp]. change (bpow radix2 (-77)) with (/ 151115727451828646838272). unfold cond_Zopp. unfold U. apply Rabs_le. lra.
Qed.
Lemma sum_tol M r h : moderate M -> lengths_upto M r h -> default_is (confusion * nlit 1 2 * (r + h))%float ((val r + val h) / 20000000).
Proof.
  intros HM ([Nr Br] & [Nh Bh] & L). rewrite two_p in L. destruct HM as [_ HM]. rewrite two_p in HM. destruct half_conf as [Nk Ek].
  pose proof (bpow_gt_0 radix2 (-300)) as P3. assert (bpow radix2 (-1000) <= bpow radix2 (-300)) as B1 by (apply bpow_le; lia). assert (2 * bpow radix2 400 <= bpow radix2 1000) as B2.
  { change 2 with (bpow radix2 1). rewrite <- bpow_plus. apply bpow_le. lia. }
  destruct (add_err r h (val r + val h) Nr Nh ltac:(lra) ltac:(lra)) as [Ns Es]; [rewrite Rabs_pos_eq; lra|].
  destruct (tol_product (confusion * nlit 1 2)%float (r + h)%float (/ 20000000) (val r + val h) M ltac:(lra) L ltac:(lra) HM Ek Es _ (f_mul _ _ Nk Ns)) as [T E].
  split; [exact T|]. rewrite two_p. change (bpow radix2 (-50)) with (/ 1125899906842624). replace ((val r + val h) / 20000000) with (/ 20000000 * (val r + val h)) by field. eapply Rle_trans; [exact E|]. unfold U. lra.
Qed.
Lemma radius_tol M r : moderate M -> radius_upto M r -> powerRZ 2 (-300) <= val r -> default_is (r * confusion)%float (val r / 10000000).
Proof.
  intros HM [Nr Br] L. rewrite two_p in L. destruct HM as [_ HM]. rewrite two_p in HM. destruct conf_dbl as [Nk Ek]. pose proof (bpow_gt_0 radix2 (-300)) as P3.
  assert (Rabs (val (confusion : PrimFloat.float) - / 10000000) <= 2 * U * / 10000000) as Ek2 by (unfold U in *; lra).
  assert (Rabs (val r - val r) <= U * val r) as Er by (rewrite Rminus_diag_eq, Rabs_R0 by reflexivity; unfold U; lra).
  destruct (tol_product confusion r (/ 10000000) (val r) M ltac:(lra) L ltac:(lra) HM Ek2 Er (r * confusion)%float) as [T E].
  { rewrite Rmult_comm. apply f_mul; assumption. }
  split; [exact T|]. rewrite two_p. change (bpow radix2 (-50)) with (/ 1125899906842624). replace (val r / 10000000) with (/ 10000000 * val r) by field. eapply Rle_trans; [exact E|]. unfold U. lra.
Qed.
Lemma c106_sphere_lemma : forall M (s : sphere PrimFloat.float) p e, moderate M -> point_upto M (sp_c s) -> point_upto M p -> radius_upto M (sp_r s) -> tolerance e ->
  decides (sphere_contains s p e) (dist (val3 p) (val3 (sp_c s))) (widened (val (sp_r s)) (val e)) (powerRZ 2 (-51) * M).
Proof. intros M s p e. apply sphere_dbl. Qed.
Lemma c106_cylinder_lemma : forall M (c : cyl PrimFloat.float) p e y D, let s := e_c (c_bot c) in let t := e_c (c_top c) in
  moderate M -> axis_upto M s t -> radius_upto M (cyl_radius c) -> point_upto M p -> tolerance e ->
  foot (val3 s) (val3 t) (val3 p) y -> dist_to (on_segment (val3 s) (val3 t)) y D ->
  decides_both (cyl_contains c p e) D (val e) (dist (val3 p) y) (widened (val (cyl_radius c)) (val e)) (powerRZ 2 (-42) * M).
Proof. intros M c p e y D s t HM (Hs & Ht & G & Hst) Hr Hp He Hy HD. apply (cyl_dbl s t p M D y); auto. Qed.
Lemma c106_surface_lemma : forall M (c : cyl PrimFloat.float) p e y D, let s := e_c (c_bot c) in let t := e_c (c_top c) in
  moderate M -> axis_upto M s t -> radius_upto M (cyl_radius c) -> point_upto M p -> tolerance e ->
  foot (val3 s) (val3 t) (val3 p) y -> dist_to (on_segment (val3 s) (val3 t)) y D ->
  decides_both (surf_contains c p e) D (val e) (Rabs (dist (val3 p) y - val (cyl_radius c))) (val e) (powerRZ 2 (-42) * M).
Proof. intros M c p e y D s t HM (Hs & Ht & G & Hst) Hr Hp He Hy HD. apply (surf_dbl s t p M D y); auto. Qed.
Lemma c106_hollow_lemma : forall M (h : hollow PrimFloat.float) p e y D, let s := e_c (h_bot h) in let t := e_c (h_top h) in
  let R := dist (val3 p) y in let rho := powerRZ 2 (-42) * M in
  moderate M -> axis_upto M s t -> radius_upto M (hollow_inner h) -> radius_upto M (h_outer h) -> point_upto M p -> tolerance e ->
  foot (val3 s) (val3 t) (val3 p) y -> dist_to (on_segment (val3 s) (val3 t)) y D ->
  (val (hollow_inner h) + rho <= R -> decides_both (hollow_contains h p e) D (val e) R (widened (val (h_outer h)) (val e)) rho) /\
  (R + rho <= val (hollow_inner h) - val e \/ (1 + powerRZ 2 (-50)) * val e + rho <= D -> hollow_contains h p e = false).
Proof. intros M h p e y D s t R rho HM (Hs & Ht & G & Hst) Hi Ho Hp He Hy HD. apply (hollow_dbl s t p M D y); auto. Qed.
Lemma c106_defaults_lemma : forall M, moderate M ->
  (forall c : cyl PrimFloat.float, lengths_upto M (cyl_radius c) (c_h c) -> exists e, default_is e ((val (cyl_radius c) + val (c_h c)) / 20000000) /\
     forall p, cyl_contains_default c p = cyl_contains c p e /\ surf_contains_default c p = surf_contains c p e) /\
  (forall h : hollow PrimFloat.float, lengths_upto M (h_outer h) (h_h h) -> exists e, default_is e ((val (h_outer h) + val (h_h h)) / 20000000) /\
     forall p, hollow_contains_default h p = hollow_contains h p e) /\
  (forall s : sphere PrimFloat.float, radius_upto M (sp_r s) -> powerRZ 2 (-300) <= val (sp_r s) -> exists e, default_is e (val (sp_r s) / 10000000) /\
     forall p, sphere_contains_default s p = sphere_contains s p e).
Proof.
  intros M HM. split; [|split].
  - intros c H. exists (cyl_eps c). split; [exact (sum_tol M _ _ HM H)|]. intros p. split; reflexivity.
  - intros h H. exists (hollow_eps h). split; [exact (sum_tol M _ _ HM H)|]. intros p. reflexivity.
  - intros s H1 H2. exists (sp_r s * confusion)%float. split; [exact (radius_tol M _ HM H1 H2)|]. intros p. reflexivity.
Qed.
