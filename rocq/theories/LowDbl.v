(** Adding zero coordinates does not change a sum in double precision. *)

From Coq Require Import ZArith List Bool Reals Lra Lia.
From Flocq Require Import Core BinarySingleNaN PrimFloat Plus_error.
From Coq Require Import Floats.
From Verif Require Import Base NumModel VecModel LinModel DistModel LowModel LowSpec.
Import ListNotations.

Definition mzero (x : PrimFloat.float) : Prop := Prim2SF x = S754_zero true.

Lemma zero_lit : (n0 : PrimFloat.float) = 0%float. Proof. vm_compute. reflexivity. Qed.
Lemma zz_mul : ((0 * 0)%float) = 0%float. Proof. vm_compute. reflexivity. Qed.
Lemma zz_sub : ((0 - 0)%float) = 0%float. Proof. vm_compute. reflexivity. Qed.
Lemma add_zero_r s : ~ mzero s -> (s + 0)%float = s.
Proof.
  intros H. apply Prim2SF_inj. rewrite add_spec. change (Prim2SF 0) with (S754_zero false). unfold mzero in H.
  destruct (Prim2SF s) as [[|]|[|]| |]; try reflexivity. congruence.
Qed.
Lemma add_zero_l t : ~ mzero (0 + t)%float.
Proof.
  unfold mzero. rewrite add_spec. change (Prim2SF 0) with (S754_zero false). destruct (Prim2SF t) as [[|]|[|]| |]; discriminate.
Qed.
Lemma add_mzero a b : ~ mzero a -> ~ mzero (a + b)%float.
Proof.
  unfold mzero. intros Ha Hs.
  assert (B2SF (Prim2B (a + b)%float) = S754_zero true) as Hs' by (rewrite B2SF_Prim2B; exact Hs).
  rewrite <- B2SF_Prim2B in Ha. rewrite add_equiv in Hs'.
  destruct (BinarySingleNaN.is_finite (Prim2B a)) eqn:Fa; [destruct (BinarySingleNaN.is_finite (Prim2B b)) eqn:Fb|].
  - pose proof (Bplus_correct prec emax Hprec Hmax mode_NE (Prim2B a) (Prim2B b) Fa Fb) as C.
    match type of C with if ?c then _ else _ => destruct c end.
    2:{ destruct C as [C _]. rewrite Hs' in C. discriminate C. }
    destruct C as (C1 & C2 & C3).
    match type of Hs' with B2SF ?t = _ => assert (t = B754_zero true) as Z end.
    { apply B2SF_inj. exact Hs'. }
    rewrite Z in C1, C3. cbn [B2R Bsign] in C1, C3.
    assert (B2R (Prim2B a) + B2R (Prim2B b) = 0)%R as S0.
    { destruct (Req_dec (B2R (Prim2B a) + B2R (Prim2B b)) 0) as [E|N]; [exact E|exfalso].
      symmetry in C1. revert C1. apply round_plus_neq_0; [apply (fexp_correct prec emax Hprec)|apply (@monotone_exp_not_FTZ _ (fexp_correct prec emax Hprec) (fexp_monotone prec emax))|apply valid_rnd_round_mode|apply generic_format_B2R|apply generic_format_B2R|exact N]. }
    rewrite S0, Rcompare_Eq in C3 by reflexivity. symmetry in C3. apply andb_true_iff in C3. destruct C3 as [Sa Sb].
    destruct (Prim2B a) as [sa|sa| |sa ma ea Ba]; try discriminate Fa; cbn [Bsign] in Sa; subst sa.
    + apply Ha. reflexivity.
    + destruct (Prim2B b) as [sb|sb| |sb mb eb Bb]; try discriminate Fb; cbn [Bsign] in Sb; subst sb; cbn [B2R] in S0.
      * pose proof (F2R_lt_0 radix2 (Float radix2 (Zneg ma) ea) ltac:(reflexivity)). cbn [cond_Zopp Z.opp] in S0. lra.
      * pose proof (F2R_lt_0 radix2 (Float radix2 (Zneg ma) ea) ltac:(reflexivity)). pose proof (F2R_lt_0 radix2 (Float radix2 (Zneg mb) eb) ltac:(reflexivity)).
        cbn [cond_Zopp Z.opp] in S0. lra.
  - destruct (Prim2B b) as [sb|sb| |sb mb eb Bb]; try discriminate Fb; destruct (Prim2B a) as [sa|sa| |sa ma ea Ba]; try discriminate Fa; cbn in Hs'; discriminate Hs'.
  - destruct (Prim2B a) as [sa|sa| |sa ma ea Ba]; try discriminate Fa; destruct (Prim2B b) as [sb|sb| |sb mb eb Bb]; cbn in Hs'; try discriminate Hs'.
    destruct (Bool.eqb sa sb); discriminate Hs'.
Qed.

Lemma flow_cases (v : list PrimFloat.float) : low v -> (exists x, v = [x]) \/ (exists x y, v = [x; y]) \/ (exists x y z, v = [x; y; z]).
Proof. intros [L|[L|L]]; destruct v as [|x [|y [|z [|? ?]]]]; try discriminate; eauto 8. Qed.

Lemma up_sqlen_f (v : list PrimFloat.float) : low v -> d_sqlen v = sqlen (up v).
Proof.
  intros L. apply flow_cases in L. destruct L as [(x & ->)|[(x & y & ->)|(x & y & z & ->)]]; unfold d_sqlen, sqlen, up; cbn [fold_left nth vx vy vz];
    rewrite ?zero_lit; cbn [nadd nmul F_num]; rewrite ?zz_mul.
  - rewrite !add_zero_r; [reflexivity|..]; repeat (apply add_zero_l || apply add_mzero).
  - rewrite !add_zero_r; [reflexivity|..]; apply add_mzero, add_zero_l.
  - reflexivity.
Qed.
Lemma up_len_f (v : list PrimFloat.float) : low v -> d_len v = vlen (up v).
Proof. intros L. unfold d_len, vlen. rewrite up_sqlen_f by exact L. reflexivity. Qed.
Lemma up_sprod_f (v w : list PrimFloat.float) : low v -> same_space v w -> d_sprod v w = sprod (up v) (up w).
Proof.
  intros L S. apply flow_cases in L. unfold same_space in S.
  destruct L as [(x & ->)|[(x & y & ->)|(x & y & z & ->)]]; destruct w as [|x' [|y' [|z' [|? ?]]]]; try discriminate S;
    unfold d_sprod, sprod, up; cbn [fold_left combine fst snd nth vx vy vz]; rewrite ?zero_lit; cbn [nadd nmul F_num]; rewrite ?zz_mul.
  - rewrite !add_zero_r; [reflexivity|..]; repeat (apply add_zero_l || apply add_mzero).
  - rewrite !add_zero_r; [reflexivity|..]; apply add_mzero, add_zero_l.
  - reflexivity.
Qed.
Lemma up_to_f (v w : list PrimFloat.float) : low v -> same_space v w -> up (d_to v w) = vec_to (up v) (up w) /\ low (d_to v w).
Proof.
  intros L S. apply flow_cases in L. unfold same_space in S.
  destruct L as [(x & ->)|[(x & y & ->)|(x & y & z & ->)]]; destruct w as [|x' [|y' [|z' [|? ?]]]]; try discriminate S;
    unfold d_to, d_sub, vec_to, up, low; cbn [combine map fst snd nth vx vy vz length]; rewrite ?zero_lit; cbn [nsub F_num]; rewrite ?zz_sub; auto.
Qed.
Lemma up_eq_f (p q : list PrimFloat.float) e : low p -> same_space p q -> d_eq p q e = pt_eq (up p) (up q) e.
Proof. intros L S. destruct (up_to_f p q L S) as [E Lt]. unfold d_eq, pt_eq. rewrite up_sqlen_f by exact Lt. rewrite E. reflexivity. Qed.
Lemma up_dist_f (p q : list PrimFloat.float) : low p -> same_space p q -> d_dist p q = dist_points (up p) (up q).
Proof. intros L S. destruct (up_to_f p q L S) as [E Lt]. unfold d_dist, dist_points. rewrite up_len_f by exact Lt. rewrite E. reflexivity. Qed.
