(** Basic lemmas connecting the model over the reals with the specification vocabulary. *)

From Coq Require Import Reals Lra Psatz Bool List.
From Verif Require Import NumModel VecModel GeoSpec.
Local Open Scope R_scope.

Lemma Rltb_spec x y : reflect (x < y) (Rltb x y).
Proof. unfold Rltb. destruct (Rlt_dec x y); constructor; assumption. Qed.
Lemma Rleb_spec x y : reflect (x <= y) (Rleb x y).
Proof. unfold Rleb. destruct (Rle_dec x y); constructor; assumption. Qed.
Lemma Reqb_spec x y : reflect (x = y) (Reqb x y).
Proof. unfold Reqb. destruct (Req_EM_T x y); constructor; assumption. Qed.

Lemma Rltb_true x y : Rltb x y = true <-> x < y.
Proof. destruct (Rltb_spec x y); split; intros; try discriminate; try contradiction; auto. Qed.
Lemma Rltb_false x y : Rltb x y = false <-> y <= x.
Proof. destruct (Rltb_spec x y); split; intros; try discriminate; try lra; auto. Qed.
Lemma Rleb_true x y : Rleb x y = true <-> x <= y.
Proof. destruct (Rleb_spec x y); split; intros; try discriminate; try contradiction; auto. Qed.
Lemma Rleb_false x y : Rleb x y = false <-> y < x.
Proof. destruct (Rleb_spec x y); split; intros; try discriminate; try lra; auto. Qed.
Lemma Reqb_true x y : Reqb x y = true <-> x = y.
Proof. destruct (Reqb_spec x y); split; intros; try discriminate; try contradiction; auto. Qed.
Lemma Reqb_false x y : Reqb x y = false <-> x <> y.
Proof. destruct (Reqb_spec x y); split; intros; try discriminate; try contradiction; auto. Qed.

(** Unfold the class operations of the reals. *)
Ltac rn := cbn [nadd nsub nmul ndiv nopp nabs nsqrt nltb nleb neqb nsign nlit R_num
                npi ncos nsin nacos natan R_trig Rlit fst snd vx vy vz] in *.
(** Case analysis on a comparison. *)
Ltac rcmp :=
  match goal with
  | |- context [Rltb ?a ?b] => destruct (Rltb_spec a b)
  | |- context [Rleb ?a ?b] => destruct (Rleb_spec a b)
  | |- context [Reqb ?a ?b] => destruct (Reqb_spec a b)
  end.
Ltac rcmp_in H :=
  match type of H with
  | context [Rltb ?a ?b] => destruct (Rltb_spec a b)
  | context [Rleb ?a ?b] => destruct (Rleb_spec a b)
  | context [Reqb ?a ?b] => destruct (Reqb_spec a b)
  end.

Lemma v3_eq (u v : pt) : vx u = vx v -> vy u = vy v -> vz u = vz v -> u = v.
Proof. destruct u, v. cbn. intros -> -> ->. reflexivity. Qed.
Ltac v3 := apply v3_eq; cbn [vx vy vz].

(** model operations = specification operations *)
Lemma sprod_dot (u v : pt) : sprod u v = dot u v.
Proof. unfold sprod, dot. rn. ring. Qed.
Lemma sqlen_dot (u : pt) : sqlen u = dot u u.
Proof. unfold sqlen, dot. rn. ring. Qed.
Lemma vlen_norm (u : pt) : vlen u = norm u.
Proof. unfold vlen, norm. rn. rewrite sqlen_dot. reflexivity. Qed.
Lemma vec_to_psub (a b : pt) : vec_to a b = psub b a.
Proof. reflexivity. Qed.
Lemma vadd_padd (a b : pt) : vadd a b = padd a b.
Proof. reflexivity. Qed.
Lemma vsub_psub (a b : pt) : vsub a b = psub a b.
Proof. reflexivity. Qed.
Lemma vscale_pscale (a : pt) c : vscale a c = pscale c a.
Proof. unfold vscale, pscale. rn. v3; ring. Qed.
Lemma vdiv_pscale (a : pt) c : vdiv a c = pscale (/ c) a.
Proof. unfold vdiv, pscale. rn. v3; unfold Rdiv; ring. Qed.
Lemma box_det (u v w : pt) : box_product u v w = det3 u v w.
Proof. unfold box_product, sprod, cross, det3. rn. ring. Qed.

(** Everything down to coordinates. *)
Ltac coords := unfold dist, norm, on_plane, unit3, ortho, dot, psub, padd, pscale, zero3, det3,
  cross, sprod, sqlen, vec_to, vadd, vsub, vscale, vdiv in *; rn; cbn [vx vy vz] in *.

Lemma dot_comm u v : dot u v = dot v u.
Proof. coords. ring. Qed.
Lemma dot_nonneg u : 0 <= dot u u.
Proof. coords. nra. Qed.
Lemma dot_zero u : dot u u = 0 -> u = zero3.
Proof.
  intros H. assert (vx u = 0 /\ vy u = 0 /\ vz u = 0) as (a & b & c) by (coords; repeat split; nra).
  destruct u. cbn in a, b, c. unfold zero3. congruence.
Qed.
Lemma dot_pos u : u <> zero3 -> 0 < dot u u.
Proof.
  intros H. destruct (Rle_lt_or_eq_dec _ _ (dot_nonneg u)) as [Hl|He]; [exact Hl|].
  exfalso. apply H. apply dot_zero. auto.
Qed.
Lemma norm_nonneg u : 0 <= norm u.
Proof. apply sqrt_pos. Qed.
Lemma norm_sq u : norm u * norm u = dot u u.
Proof. apply sqrt_sqrt, dot_nonneg. Qed.
Lemma norm_pos u : u <> zero3 -> 0 < norm u.
Proof. intros H. apply sqrt_lt_R0, dot_pos, H. Qed.
Lemma norm_zero u : norm u = 0 -> u = zero3.
Proof. intros H. apply dot_zero. rewrite <- norm_sq, H. ring. Qed.
Lemma norm_unit u : unit3 u -> norm u = 1.
Proof. unfold unit3, norm. intros ->. apply sqrt_1. Qed.

Lemma lagrange u v : dot (cross u v) (cross u v) = dot u u * dot v v - dot u v * dot u v.
Proof. coords. ring. Qed.
Lemma cauchy u v : dot u v * dot u v <= dot u u * dot v v.
Proof. pose proof (dot_nonneg (cross u v)) as H. rewrite lagrange in H. lra. Qed.
Lemma cauchy_norm u v : Rabs (dot u v) <= norm u * norm v.
Proof.
  unfold norm. rewrite <- sqrt_mult by apply dot_nonneg. rewrite <- sqrt_Rsqr_abs.
  apply sqrt_le_1_alt. unfold Rsqr. apply cauchy.
Qed.

(** squares and comparisons *)
Lemma sq_lt_iff a b : 0 <= a -> 0 <= b -> (a * a < b * b <-> a < b).
Proof. intros Ha Hb. split; intros H; nra. Qed.
Lemma sq_le_iff a b : 0 <= a -> 0 <= b -> (a * a <= b * b <-> a <= b).
Proof. intros Ha Hb. split; intros H; nra. Qed.
Lemma sqrt_lt_sq a b : 0 <= a -> 0 <= b -> (sqrt a < b <-> a < b * b).
Proof.
  intros Ha Hb. rewrite <- (sqrt_sqrt a Ha) at 2.
  rewrite sq_lt_iff; [reflexivity| apply sqrt_pos|assumption].
Qed.
Lemma sqrt_le_sqrt_iff a b : 0 <= a -> 0 <= b -> (sqrt a <= sqrt b <-> a <= b).
Proof.
  intros Ha Hb. split; intros H.
  - apply sqrt_le_0; assumption.
  - apply sqrt_le_1_alt; assumption.
Qed.

Lemma dist_sym p q : dist p q = dist q p.
Proof. unfold dist, norm. f_equal. coords. ring. Qed.
Lemma dist_nonneg p q : 0 <= dist p q.
Proof. apply norm_nonneg. Qed.
Lemma dist_self p : dist p p = 0.
Proof. unfold dist, norm. replace (dot _ _) with 0 by (coords; ring). apply sqrt_0. Qed.
Lemma dist_zero p q : dist p q = 0 -> p = q.
Proof.
  intros H. apply norm_zero in H. unfold zero3, psub in H. injection H as a b c.
  destruct p, q. cbn in *. f_equal; lra.
Qed.
Lemma dist_le_iff x y z : dist x y <= dist x z <-> dot (psub x y) (psub x y) <= dot (psub x z) (psub x z).
Proof. unfold dist, norm. apply sqrt_le_sqrt_iff; apply dot_nonneg. Qed.
Lemma dist_lt_eps p q eps : 0 <= eps -> (dist p q < eps <-> dot (psub p q) (psub p q) < eps * eps).
Proof. intros H. unfold dist, norm. apply sqrt_lt_sq; [apply dot_nonneg|assumption]. Qed.

(** directions *)
Lemma to_dir_unit (v : pt) : v <> zero3 -> unit3 (to_dir v).
Proof.
  intros H. unfold to_dir. rewrite vlen_norm, vdiv_pscale. pose proof (norm_pos v H) as Hp.
  pose proof (norm_sq v) as Hs. unfold unit3.
  replace (dot (pscale (/ norm v) v) (pscale (/ norm v) v)) with ((/ norm v * / norm v) * dot v v)
    by (coords; ring).
  rewrite <- Hs. field. lra.
Qed.
Lemma to_dir_scale (v : pt) : v <> zero3 -> to_dir v = pscale (/ norm v) v.
Proof. intros _. unfold to_dir. rewrite vlen_norm. apply vdiv_pscale. Qed.
Lemma to_dir_of_unit (v : pt) : unit3 v -> to_dir v = v.
Proof.
  intros H. unfold to_dir. rewrite vlen_norm, vdiv_pscale, (norm_unit v H).
  destruct v. unfold pscale. cbn. f_equal; field.
Qed.
Lemma unit3_nonzero u : unit3 u -> u <> zero3.
Proof. intros H ->. unfold unit3 in H. coords. lra. Qed.

Lemma pt_eq_spec (p q : pt) eps : 0 <= eps -> (pt_eq p q eps = true <-> dist p q < eps).
Proof.
  intros H. unfold pt_eq. rn. rewrite Rltb_true, sqlen_dot, dist_lt_eps by assumption.
  rewrite vec_to_psub. replace (dot (psub q p) (psub q p)) with (dot (psub p q) (psub p q)) by (coords; ring).
  reflexivity.
Qed.
