(** Areas and volumes as integrals. *)

From Coq Require Import Reals Lra Psatz List.
From Coquelicot Require Import Coquelicot.
From Verif Require Import Base NumModel VecModel LinModel RoundModel GeoSpec RoundSpec GeoLemmas.
Local Open Scope R_scope.

Lemma cont_mult (f g : R -> R) x : continuous f x -> continuous g x -> continuous (fun x => f x * g x) x.
Proof. intros Hf Hg. exact (continuous_mult f g x Hf Hg). Qed.
Lemma cont_minus (f g : R -> R) x : continuous f x -> continuous g x -> continuous (fun x => f x - g x) x.
Proof. intros Hf Hg. exact (continuous_minus f g x Hf Hg). Qed.
Lemma cont_const (c x : R) : continuous (fun _ : R => c) x.
Proof. apply continuous_const. Qed.
Lemma cont_id (x : R) : continuous (fun x : R => x) x.
Proof. apply continuous_id. Qed.

(** ∫ cos² = (x + sin x cos x) / 2 *)
Lemma cos2_int a b : is_RInt (fun x => cos x * cos x) a b ((b + sin b * cos b) / 2 - (a + sin a * cos a) / 2).
Proof.
  apply (is_RInt_derive (fun x => (x + sin x * cos x) / 2)).
  - intros x _. auto_derive; [exact I|]. pose proof (sin2_cos2 x) as E. unfold Rsqr in E. 
    replace (sin x * sin x) with (1 - cos x * cos x) by lra.
    assert (sin x * sin x = 1 - cos x * cos x) by lra. nra.
  - intros x _. apply (continuous_mult cos cos); apply continuous_cos.
Qed.

Lemma half_ellipse_cont a b x : continuous (fun x => 2 * (b * sqrt (1 - Rsqr (x / a)))) x.
Proof.
  apply cont_mult; [apply cont_const|]. apply cont_mult; [apply cont_const|].
  apply (continuous_comp (fun x => 1 - Rsqr (x / a)) sqrt); [|apply continuous_sqrt].
  apply cont_minus; [apply cont_const|]. unfold Rsqr, Rdiv.
  apply (cont_mult (fun x => x * / a) (fun x => x * / a)); apply (cont_mult (fun x => x) (fun _ => / a));
    try apply cont_id; apply cont_const.
Qed.

(** the area below the half ellipse *)
Lemma ellipse_area a b : 0 < a -> 0 < b ->
  is_RInt (fun x => 2 * (b * sqrt (1 - Rsqr (x / a)))) (- a) a (PI * a * b).
Proof.
  intros Ha Hb. pose proof PI_RGT_0 as HP.
  set (f := fun x => 2 * (b * sqrt (1 - Rsqr (x / a)))).
  set (g := fun t => a * sin t).
  replace (- a) with (g (- (PI / 2))) by (unfold g; rewrite sin_neg, sin_PI2; ring).
  replace a with (g (PI / 2)) at 1 by (unfold g; rewrite sin_PI2; ring).
  assert (is_RInt (fun y => scal (a * cos y) (f (g y))) (- (PI / 2)) (PI / 2) (PI * a * b)) as H1.
  { apply (is_RInt_ext (fun y => scal (2 * a * b) (cos y * cos y))).
    - intros y Hy. rewrite Rmin_left, Rmax_right in Hy by lra. unfold f, g, scal. cbn. unfold mult. cbn.
      replace (a * sin y / a) with (sin y) by (field; lra).
      replace (1 - (sin y)²) with (Rsqr (cos y)) by (pose proof (sin2_cos2 y); lra).
      rewrite sqrt_Rsqr by (apply cos_ge_0; lra). ring.
    - pose proof (is_RInt_scal _ _ _ (2 * a * b) _ (cos2_int (- (PI / 2)) (PI / 2))) as K.
      replace (PI * a * b) with (scal (2 * a * b) ((PI / 2 + sin (PI / 2) * cos (PI / 2)) / 2 - (- (PI / 2) + sin (- (PI / 2)) * cos (- (PI / 2))) / 2)); [exact K|].
      rewrite cos_neg, sin_neg, cos_PI2. unfold scal. cbn. unfold mult. cbn. field. }
  assert (is_RInt (fun y => scal (a * cos y) (f (g y))) (- (PI / 2)) (PI / 2) (RInt f (g (- (PI / 2))) (g (PI / 2)))) as H2.
  { apply (is_RInt_comp f g (fun y => a * cos y)).
    - intros x _. unfold f. apply half_ellipse_cont.
    - intros x _. split; [unfold g; auto_derive; [exact I|ring]|]. apply cont_mult; [apply cont_const|apply continuous_cos]. }
  assert (ex_RInt f (g (- (PI / 2))) (g (PI / 2))) as Hex.
  { apply (ex_RInt_continuous f). intros z _. unfold f. apply half_ellipse_cont. }
  pose proof (RInt_correct (V := R_CompleteNormedModule) f _ _ Hex) as K.
  replace (PI * a * b) with (RInt f (g (- (PI / 2))) (g (PI / 2))); [exact K|].
  pose proof (is_RInt_unique (V := R_CompleteNormedModule) _ _ _ _ H1) as U1.
  pose proof (is_RInt_unique (V := R_CompleteNormedModule) _ _ _ _ H2) as U2.
  rewrite <- U1, <- U2. reflexivity.
Qed.

Lemma disk_area_int (d : ell R) : 0 < e_a d -> 0 < e_b d ->
  is_RInt (fun x => 2 * (e_b d * sqrt (1 - Rsqr (x / e_a d)))) (- e_a d) (e_a d) (disk_area d).
Proof. intros. unfold disk_area. rn. apply ellipse_area; assumption. Qed.

Lemma const_int (c a b v : R) : v = (b - a) * c -> is_RInt (fun _ => c) a b v.
Proof. intros ->. apply (is_RInt_const a b c). Qed.

Lemma cyl_volume_int (cy : cyl R) :
  is_RInt (fun _ => PI * (cyl_radius cy) ^ 2) 0 (c_h cy) (cyl_volume cy).
Proof. apply const_int. unfold cyl_volume. rn. ring. Qed.
Lemma hollow_volume_int (h : hollow R) :
  is_RInt (fun _ => PI * (h_outer h) ^ 2 - PI * (hollow_inner h) ^ 2) 0 (h_h h) (hollow_volume h).
Proof. apply const_int. unfold hollow_volume. rn. ring. Qed.
Lemma surf_area_int (cy : cyl R) :
  is_RInt (fun _ => 2 * PI * cyl_radius cy) 0 (c_h cy) (surf_area cy).
Proof. apply const_int. unfold surf_area. rn. ring. Qed.
(** the sections of the sphere at the height z are circles with radius sqrt (r² - z²) *)
Lemma sphere_volume_int (s : sphere R) : 0 <= sp_r s ->
  is_RInt (fun z => PI * (sqrt (Rsqr (sp_r s) - Rsqr z)) ^ 2) (- sp_r s) (sp_r s) (sphere_volume s).
Proof.
  intros Hr. set (r := sp_r s) in *.
  apply (is_RInt_ext (fun z => PI * (r * r - z * z))).
  - intros z Hz. rewrite Rmin_left, Rmax_right in Hz by lra. cbn [pow]. rewrite Rmult_1_r.
    rewrite sqrt_sqrt; [reflexivity|]. unfold Rsqr. nra.
  - replace (sphere_volume s) with ((fun z => PI * (r * r * z - z ^ 3 / 3)) r - (fun z => PI * (r * r * z - z ^ 3 / 3)) (- r)).
    + apply (is_RInt_derive (fun z => PI * (r * r * z - z ^ 3 / 3))).
      * intros x _. auto_derive; [exact I|]. field.
      * intros x _. apply cont_mult; [apply cont_const|]. apply cont_minus; [apply cont_const|].
        apply cont_mult; apply cont_id.
    + unfold sphere_volume. fold r. rn. field.
Qed.
