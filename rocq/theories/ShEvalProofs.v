(** Proofs about the constraints on face shapes. *)

From Coq Require Import Reals List Lra Psatz Bool ZArith.
From stdpp Require base list.
From Verif Require Import Base ConstraintsModel ConstraintsSpec ConstraintsProofs.
From Verif Require Import NumModel VecModel LinModel RoundModel PolyModel DistModel IntModel AngModel CylIntModel EvalModel FaceFaceModel ShEvalModel
  GeoSpec LinSpec RoundSpec PolySpec DistSpec IntSpec AngSpec EvalSpec FaceFaceSpec ShEvalSpec
  GeoLemmas LinProofs DistProofs LenProofs IntProofs FaceIntProofs AngProofs AngProofs2 BoxProofs EvalProofs FaceFaceProofs.
Import ListNotations.
Local Open Scope R_scope.

Lemma all_of_between {X} (f : X -> outcome bool) (P Q : X -> Prop) l :
  (forall x, In x l -> exists b, f x = Ok b /\ (P x -> b = true) /\ (b = true -> Q x)) ->
  exists b, all_of f l = Ok b /\ ((forall x, In x l -> P x) -> b = true) /\ (b = true -> forall x, In x l -> Q x).
Proof.
  induction l as [|x l IH]; intros Hl; cbn [all_of].
  - exists true. split; [reflexivity|]. split; [reflexivity|]. intros _ x [].
  - destruct (Hl x (or_introl eq_refl)) as (b & -> & B1 & B2). cbn [obind].
    destruct IH as (b' & -> & C1 & C2); [intros y Hy; apply Hl; right; exact Hy|].
    exists (b && b'). split; [destruct b; reflexivity|]. split.
    + intros A. rewrite B1, C1; [reflexivity|intros y Hy; apply A; right; exact Hy|apply A; left; reflexivity].
    + intros E. apply andb_prop in E as [-> ->]. intros y [<-|Hy]; [apply B2; reflexivity|apply C2; [reflexivity|exact Hy]].
Qed.

Section Sh.
Context {F E W : Type}.
Variables (top : R) (S : shape_ops R F E W).
Variables (fpts : F -> pt -> Prop) (epts : E -> pt -> Prop) (wpts : W -> pt -> Prop).
Variables (N : F -> pt -> pt) (len : E -> R).
Notation lt_ := (fun x y : R => nltb x y).
Notation ge_ := (fun x y : R => nleb y x).
Notation K := (sh_kernel top S).
Notation skernel := (so_shapes S).
Notation sset := (sh_set fpts).
Notation fits := (sh_fits top S fpts wpts N).

Lemma fits_pts M P g t : fits M P g t -> forall x, fpts (sh_shape S g) x <-> sset g x.
Proof. destruct g as [[f|c]|s]; cbn; [|tauto|tauto]. intros (_ & _ & _ & _ & _ & H). exact H. Qed.

(** *** A point keeps off a boundary *)
Lemma sh_point_off M (P : pt -> Prop) g t p thr : 0 <= M -> fits M P g t -> P p -> sset g p ->
  exists r, adm_db_point ge_ K thr p g = Ok r /\
    (keeps_off t thr 0 (M / 10000000) (sh_bound S wpts g) p -> r = true) /\
    (r = true -> keeps_off t thr (M / 10000000) 0 (sh_bound S wpts g) p).
Proof.
  intros HM Hf HP Hp. destruct g as [[f|c]|s]; cbn [sh_fits sh_set] in Hf.
  - destruct Hf as (F1 & F2 & F3 & F4 & F5 & _). apply (point_off top (so_ent S) f M p t thr F1 F2 F3 F4 Hp F5).
  - destruct Hf.
  - destruct Hf as (_ & -> & Hd). destruct (Hd p HP) as (d & Dd & Ed). unfold adm_db_point.
    cbn [k_on_boundary k_dist_boundary sh_kernel sh_on_boundary sh_dist_boundary]. unfold on_shape_boundary. rewrite Ed. cbn [obind sh_bound].
    generalize (eps_box (so_wire_box S (so_outer S s))). intros t. rn. destruct (Rltb d t) eqn:C.
    + apply Rltb_true in C. exists true. split; [reflexivity|]. split; [reflexivity|]. intros _ d' Hd'. rewrite (dist_to_unique _ _ _ _ Hd' Dd). left. lra.
    + assert (~ d < t) as C' by (intros X; apply Rltb_true in X; congruence).
      exists (Rleb thr d). split; [reflexivity|]. split.
      * intros Hk. destruct (Hk d Dd) as [X|X]; [lra|]. apply Rleb_true. lra.
      * intros X. apply Rleb_true in X. intros d' Hd'. rewrite (dist_to_unique _ _ _ _ Hd' Dd). right. lra.
Qed.

Lemma sh_eval_intersect h g1 g2 u1 u2 : sh_eps S g1 = Ok u1 -> sh_eps S g2 = Ok u2 ->
  sh_intersect S (if useIntersectionEps (crun 0 (rev h)) then Some (intersectionEps (crun 0 (rev h))) else None) g1 g2 =
  sh_intersect_eps S g1 g2 (is_eps h u1 u2).
Proof.
  intros E1 E2. pose proof (settings_rev 0 h) as ES. set (c := crun 0 (rev h)) in *. unfold abs_of in ES. injection ES as S1 S2 S3 S4 S5 S6.
  rewrite S5. unfold sh_intersect, is_eps. destruct (active_eps h) as [e|]; [reflexivity|].
  rewrite E1, E2. cbn [obind]. rewrite nmin_min. reflexivity.
Qed.

Section Pair.
Variables (h : list (cop R)) (g1 g2 : sent R F) (u1 u2 t1 t2 M : R).
Hypothesis HP : sh_pair top S fpts epts wpts N len h g1 g2 u1 u2 t1 t2 M.
Notation eps := (is_eps h u1 u2).
Notation f1 := (fst (operands S g1 g2)).
Notation f2 := (snd (operands S g1 g2)).
Definition sh_result : list (spiece R F E) := int_face_face skernel f1 f2 eps.

Lemma operand_sets : forall x, fpts f1 x /\ fpts f2 x <-> both (sset g1) (sset g2) x.
Proof.
  intros x. pose proof (fits_pts _ _ _ _ (sp_f1 _ _ _ _ _ _ _ _ _ _ _ _ _ _ _ HP) x) as A1.
  pose proof (fits_pts _ _ _ _ (sp_f2 _ _ _ _ _ _ _ _ _ _ _ _ _ _ _ HP) x) as A2. unfold both.
  destruct g1 as [e1|s1], g2 as [e2|s2]; unfold operands; cbn [fst snd]; tauto.
Qed.
Lemma the_intersection : sh_intersect_eps S g1 g2 eps = Ok (map of_spiece sh_result).
Proof.
  pose proof (sp_f1 _ _ _ _ _ _ _ _ _ _ _ _ _ _ _ HP) as A1. pose proof (sp_f2 _ _ _ _ _ _ _ _ _ _ _ _ _ _ _ HP) as A2.
  pose proof (sp_one _ _ _ _ _ _ _ _ _ _ _ _ _ _ _ HP) as A3. unfold sh_result.
  destruct g1 as [[?|?]|s1], g2 as [[?|?]|s2]; cbn in A1, A2, A3; try tauto; reflexivity.
Qed.
Lemma result_only i : In i sh_result ->
  match i with
  | SpEmpty => True
  | SpPoint p => both (sset g1) (sset g2) p
  | SpEdge e => so_length S e = Ok (len e) /\ both (sset g1) (sset g2) (so_first S e) /\ both (sset g1) (sset g2) (so_last S e) /\
      forall p, In p (stations S e) -> both (sset g1) (sset g2) p
  | SpFace f => False
  end.
Proof.
  intros Hi. pose proof (face_face_within skernel fpts epts f1 f2 eps (sp_pos _ _ _ _ _ _ _ _ _ _ _ _ _ _ _ HP) (sp_common _ _ _ _ _ _ _ _ _ _ _ _ _ _ _ HP)) as Hw.
  unfold sh_result in Hi. assert (Hi' : i <> SpEmpty -> In i (face_face_3d skernel f1 f2 eps)).
  { intros Hn. unfold int_face_face in Hi. destruct (negb _); [|exact Hi]. destruct Hi as [<-|[]]. tauto. }
  destruct i as [|p|e|f]; [exact I|..].
  - apply operand_sets, (Hw (SpPoint p) p Hi). reflexivity.
  - pose proof (face_face_only _ _ _ _ _ (sp_pos _ _ _ _ _ _ _ _ _ _ _ _ _ _ _ HP) (Hi' ltac:(discriminate))) as He. cbn in He.
    destruct (sp_edges _ _ _ _ _ _ _ _ _ _ _ _ _ _ _ HP e) as (L1 & L2 & L3 & L4); [tauto|].
    split; [exact L1|]. split; [apply operand_sets, (Hw (SpEdge e) _ Hi), L2|]. split; [apply operand_sets, (Hw (SpEdge e) _ Hi), L3|].
    intros p Hp. apply operand_sets, (Hw (SpEdge e) _ Hi), L4, Hp.
  - specialize (Hi' ltac:(discriminate)). apply face_face_faces in Hi'. rewrite (sp_apart _ _ _ _ _ _ _ _ _ _ _ _ _ _ _ HP) in Hi'. destruct Hi'.
Qed.

(** *** Angles *)
Definition ang1 (p : pt) (th : R) : Prop :=
  int_angle top (sh_ageo S g1) (sh_ageo S g2) (PcPoint p) = Ok th /\ angle_between (sh_normal N g1 p) (sh_normal N g2 p) th.
Lemma shape_normal s p : shape_ok (so_surface S s) (fpts s) (N s) -> fpts s p -> N s p <> zero3.
Proof.
  intros Hs Hp E0. destruct (Hs p Hp) as (u & v & _ & Hd). destruct (sf_d1 (so_surface S s) u v) as [b1 b2]. destruct Hd as [Hd _].
  apply Hd. rewrite E0. unfold det3, zero3. cbn. ring.
Qed.
Lemma geo_normal f : face_ok f -> face_dir_ok f /\ face_normal f <> zero3.
Proof.
  intros Hf. assert (N1 : face_dir_ok f) by (unfold face_dir_ok; rewrite <- face_plane_normal; apply face_unit, Hf). split; [exact N1|].
  intros E0. unfold face_dir_ok, unit3 in N1. rewrite E0 in N1. unfold dot, zero3 in N1. cbn in N1. lra.
Qed.
Lemma sh_point_angle p : both (sset g1) (sset g2) p ->
  exists th, ang1 p th /\ th <= top /\ forall x, angle_between (sh_normal N g1 p) (sh_normal N g2 p) x -> x = th.
Proof.
  intros [Q1 Q2]. pose proof (sp_f1 _ _ _ _ _ _ _ _ _ _ _ _ _ _ _ HP) as A1. pose proof (sp_f2 _ _ _ _ _ _ _ _ _ _ _ _ _ _ _ HP) as A2.
  pose proof (sp_one _ _ _ _ _ _ _ _ _ _ _ _ _ _ _ HP) as A3. pose proof (sp_top _ _ _ _ _ _ _ _ _ _ _ _ _ _ _ HP) as A4. pose proof PI_RGT_0 as HPI.
  assert (exists th, ang1 p th) as (th & Hth).
  { unfold ang1. destruct g1 as [[k1|c1]|s1], g2 as [[k2|c2]|s2]; cbn [sh_fits one_shape sh_set] in *; try tauto; cbn [sh_ageo ent_ageo sh_normal].
    - destruct A1 as (B1 & _), A2 as (B2 & _). apply (face_shape_flat top k1 (so_surface S s2) (fpts s2) (N s2) p); auto. apply geo_normal, B1.
    - destruct A1 as (B1 & _), A2 as (B2 & _).
      destruct (face_shape_flat top k2 (so_surface S s1) (fpts s1) (N s1) p) as (th & T1 & T2); auto; [apply geo_normal, B2|].
      exists th. split; [|apply angle_sym, T2]. rewrite <- T1. cbn. reflexivity.
    - destruct A1 as (B1 & _), A2 as (B2 & _). apply (shapes_point_angle top _ _ (fpts s1) (fpts s2) (N s1) (N s2) p); auto. }
  exists th. split; [exact Hth|]. split; [destruct Hth as [_ [X _]]; lra|].
  intros x Hx. apply (angle_unique (sh_normal N g1 p) (sh_normal N g2 p)); [..|apply Hth]; [| |exact Hx].
  - destruct g1 as [[k1|c1]|s1]; cbn [sh_fits sh_set sh_normal] in *; [apply geo_normal, A1|tauto|apply (shape_normal s1 p); tauto].
  - destruct g2 as [[k2|c2]|s2]; cbn [sh_fits sh_set sh_normal] in *; [apply geo_normal, A2|tauto|apply (shape_normal s2 p); tauto].
Qed.
Lemma sh_edge_angle e : (forall p, In p (stations S e) -> both (sset g1) (sset g2) p) ->
  exists th, int_angle top (sh_ageo S g1) (sh_ageo S g2) (PcEdge (so_curve S e)) = Ok th /\ th <= top /\
    (exists p, In p (stations S e) /\ ang1 p th) /\ (forall p x, In p (stations S e) -> ang1 p x -> th <= x).
Proof.
  intros Hs. pose proof (sp_f1 _ _ _ _ _ _ _ _ _ _ _ _ _ _ _ HP) as A1. pose proof (sp_f2 _ _ _ _ _ _ _ _ _ _ _ _ _ _ _ HP) as A2.
  pose proof (sp_one _ _ _ _ _ _ _ _ _ _ _ _ _ _ _ HP) as A3. pose proof (sp_top _ _ _ _ _ _ _ _ _ _ _ _ _ _ _ HP) as A4.
  set (c := so_curve S e). set (at_ := fun tau => cv_value c (cv_first c + tau * (cv_last c - cv_first c))).
  assert (exists th, int_angle top (sh_ageo S g1) (sh_ageo S g2) (PcEdge c) = Ok th /\
    (exists tau, In tau [0; 1 / 4; 1 / 2; 3 / 4; 1] /\ int_angle top (sh_ageo S g1) (sh_ageo S g2) (PcPoint (at_ tau)) = Ok th) /\
    (forall tau x, In tau [0; 1 / 4; 1 / 2; 3 / 4; 1] -> int_angle top (sh_ageo S g1) (sh_ageo S g2) (PcPoint (at_ tau)) = Ok x -> th <= x)) as (th & T1 & (tau & T2 & T3) & T4).
  { destruct g1 as [[k1|c1]|s1], g2 as [[k2|c2]|s2]; cbn [sh_fits one_shape] in *; try tauto; cbn [sh_ageo ent_ageo].
    - apply (face_shape_edge_angle top k1 (so_surface S s2) c A4).
    - apply (face_shape_edge_angle top k2 (so_surface S s1) c A4).
    - apply (shapes_edge_angle top (so_surface S s1) (so_surface S s2) c A4). }
  assert (Hst : forall p, In p (stations S e) <-> exists tau, at_ tau = p /\ In tau [0; 1 / 4; 1 / 2; 3 / 4; 1]) by (intros p; unfold stations; apply in_map_iff).
  assert (In (at_ tau) (stations S e)) as Hin by (apply Hst; eauto).
  destruct (sh_point_angle _ (Hs _ Hin)) as (th' & [B1 B2] & B3 & B4). assert (th' = th) as -> by congruence.
  exists th. split; [exact T1|]. split; [exact B3|]. split; [exists (at_ tau); split; [exact Hin|split; assumption]|].
  intros p x Hp [X1 X2]. apply Hst in Hp as (tau' & <- & Ht'). apply (T4 tau' x Ht' X1).
Qed.

Lemma sh_piece_angle i : In i sh_result -> i <> SpEmpty ->
  exists th, int_angle top (sh_ageo S g1) (sh_ageo S g2) (sh_apiece S (of_spiece i)) = Ok th /\ th <= top /\
    forall thr, thr <= th <->
    match i with
    | SpPoint p => forall x, angle_between (sh_normal N g1 p) (sh_normal N g2 p) x -> thr <= x
    | SpEdge e => forall p, In p (stations S e) -> forall x, angle_between (sh_normal N g1 p) (sh_normal N g2 p) x -> thr <= x
    | _ => True
    end.
Proof.
  intros Hi Hn. pose proof (result_only i Hi) as Ho. destruct i as [|p|e|f]; [tauto| | |tauto]; cbn [of_spiece sh_apiece].
  - destruct (sh_point_angle p Ho) as (th & [T1 T2] & T3 & T4). exists th. split; [exact T1|]. split; [exact T3|]. intros thr. split.
    + intros Hle x Hx. rewrite (T4 x Hx). exact Hle.
    + intros Hx. apply Hx, T2.
  - destruct Ho as (_ & _ & _ & Ho). destruct (sh_edge_angle e Ho) as (th & T1 & T2 & (p & Hp & T3) & T4). exists th. split; [exact T1|]. split; [exact T2|]. intros thr. split.
    + intros Hle q Hq x Hx. destruct (sh_point_angle q (Ho q Hq)) as (th' & T5 & _ & T6). rewrite (T6 x Hx).
      specialize (T4 q th' Hq T5). lra.
    + intros Hx. apply (Hx p Hp). apply T3.
Qed.
Lemma sh_angles : sh_result <> [] -> ~ In SpEmpty sh_result ->
  exists m, sh_angle top S g1 g2 (map of_spiece sh_result) = Ok m /\ forall thr, thr <= m <->
    (forall p, In (SpPoint p) sh_result -> forall x, angle_between (sh_normal N g1 p) (sh_normal N g2 p) x -> thr <= x) /\
    (forall e, In (SpEdge e) sh_result -> forall p, In p (stations S e) -> forall x, angle_between (sh_normal N g1 p) (sh_normal N g2 p) x -> thr <= x).
Proof.
  intros Hne Hn. pose proof (sp_one _ _ _ _ _ _ _ _ _ _ _ _ _ _ _ HP) as A3.
  assert (sh_angle top S g1 g2 (map of_spiece sh_result) = int_angles top (sh_ageo S g1) (sh_ageo S g2) (map (sh_apiece S) (map of_spiece sh_result))) as ->.
  { destruct g1, g2; cbn in A3; try tauto; reflexivity. }
  assert (forall r, incl r sh_result -> exists xs, Forall2 (fun i x => int_angle top (sh_ageo S g1) (sh_ageo S g2) (sh_apiece S (of_spiece i)) = Ok x /\ x <= top /\
    forall thr, thr <= x <->
    match i with
    | SpPoint p => forall y, angle_between (sh_normal N g1 p) (sh_normal N g2 p) y -> thr <= y
    | SpEdge e => forall p, In p (stations S e) -> forall y, angle_between (sh_normal N g1 p) (sh_normal N g2 p) y -> thr <= y
    | _ => True
    end) r xs) as Hxs.
  { induction r as [|i r IH]; intros Hr; [exists []; constructor|]. destruct IH as (xs & Hxs); [intros j Hj; apply Hr; right; exact Hj|].
    destruct (sh_piece_angle i) as (th & T); [apply Hr; left; reflexivity|intros ->; apply Hn, Hr; left; reflexivity|]. exists (th :: xs). constructor; assumption. }
  destruct (Hxs sh_result (fun i H => H)) as (xs & HF). clear Hxs.
  destruct (int_angles_spec top (sh_ageo S g1) (sh_ageo S g2) (map (sh_apiece S) (map of_spiece sh_result)) xs) as (m & Em & Hm & Hmin).
  - destruct sh_result; [tauto|discriminate].
  - rewrite map_map. clear -HF. induction HF as [|i x l l' [H _] _ IH]; cbn; constructor; assumption.
  - clear -HF. induction HF as [|i x l l' (_ & H & _) _ IH]; intros y; [intros []|]. intros [<-|Hy]; auto.
  - exists m. split; [exact Em|]. intros thr. rewrite <- and_comm.
    assert (thr <= m <-> forall x, In x xs -> thr <= x) as -> by (split; [intros Hle x Hx; specialize (Hmin x Hx); lra|intros Hx; apply Hx, Hm]).
    clear -HF Hn. split.
    + intros Hx. assert (forall i, In i sh_result -> exists x, In x xs /\ forall thr, thr <= x <->
        match i with
        | SpPoint p => forall y, angle_between (sh_normal N g1 p) (sh_normal N g2 p) y -> thr <= y
        | SpEdge e => forall p, In p (stations S e) -> forall y, angle_between (sh_normal N g1 p) (sh_normal N g2 p) y -> thr <= y
        | _ => True
        end) as HI.
      { clear -HF. induction HF as [|i x l l' (_ & _ & H) _ IH]; intros j; [intros []|]. intros [<-|Hj]; [exists x; split; [left; reflexivity|exact H]|].
        destruct (IH j Hj) as (y & Y1 & Y2). exists y. split; [right; exact Y1|exact Y2]. }
      split; intros j Hj; destruct (HI _ Hj) as (x & X1 & X2); apply X2, Hx, X1.
    + intros [He Hp]. assert (forall x, In x xs -> exists i, In i sh_result /\ forall thr, thr <= x <->
        match i with
        | SpPoint p => forall y, angle_between (sh_normal N g1 p) (sh_normal N g2 p) y -> thr <= y
        | SpEdge e => forall p, In p (stations S e) -> forall y, angle_between (sh_normal N g1 p) (sh_normal N g2 p) y -> thr <= y
        | _ => True
        end) as HI.
      { clear -HF. induction HF as [|i x l l' (_ & _ & H) _ IH]; intros y; [intros []|]. intros [<-|Hy]; [exists i; split; [left; reflexivity|exact H]|].
        destruct (IH y Hy) as (j & Y1 & Y2). exists j. split; [right; exact Y1|exact Y2]. }
      intros x Hx. destruct (HI x Hx) as (i & I1 & I2). apply I2. destruct i as [|p|e|f]; [exact I|apply Hp, I1|apply He, I1|exact I].
Qed.

(** *** The boundaries *)
Lemma sh_off (g : sent R F) t thr : (g = g1 /\ t = t1) \/ (g = g2 /\ t = t2) ->
  exists b, adm_db lt_ ge_ K thr g (map of_spiece sh_result) = Ok b /\
    ((forall p, In (SpPoint p) sh_result -> keeps_off t thr 0 (M / 10000000) (sh_bound S wpts g) p) ->
     (forall e, In (SpEdge e) sh_result -> keeps_off t thr 0 (M / 10000000) (sh_bound S wpts g) (so_first S e) /\ keeps_off t thr 0 (M / 10000000) (sh_bound S wpts g) (so_last S e)) -> b = true) /\
    (b = true ->
     (forall p, In (SpPoint p) sh_result -> keeps_off t thr (M / 10000000) 0 (sh_bound S wpts g) p) /\
     (forall e, In (SpEdge e) sh_result -> keeps_off t thr (M / 10000000) 0 (sh_bound S wpts g) (so_first S e) /\ keeps_off t thr (M / 10000000) 0 (sh_bound S wpts g) (so_last S e))).
Proof.
  intros Hg. pose proof (sp_M _ _ _ _ _ _ _ _ _ _ _ _ _ _ _ HP) as HM.
  assert (forall p, both (sset g1) (sset g2) p -> exists r, adm_db_point ge_ K thr p g = Ok r /\
    (keeps_off t thr 0 (M / 10000000) (sh_bound S wpts g) p -> r = true) /\
    (r = true -> keeps_off t thr (M / 10000000) 0 (sh_bound S wpts g) p)) as Hpt.
  { intros p Hp. destruct Hg as [[-> ->]|[-> ->]].
    - apply (sh_point_off M (both (sset g1) (sset g2)) g1 t1 p thr HM (sp_f1 _ _ _ _ _ _ _ _ _ _ _ _ _ _ _ HP) Hp), Hp.
    - apply (sh_point_off M (both (sset g1) (sset g2)) g2 t2 p thr HM (sp_f2 _ _ _ _ _ _ _ _ _ _ _ _ _ _ _ HP) Hp), Hp. }
  set (P := fun a b (i : spiece R F E) => match i with
    | SpPoint p => keeps_off t thr a b (sh_bound S wpts g) p
    | SpEdge e => keeps_off t thr a b (sh_bound S wpts g) (so_first S e) /\ keeps_off t thr a b (sh_bound S wpts g) (so_last S e)
    | _ => True end).
  unfold adm_db.
  assert (forall (f : @sh_piece R F E -> outcome bool) (g : spiece R F E -> @sh_piece R F E) l, all_of f (map g l) = all_of (fun x => f (g x)) l) as Hmap.
  { clear. intros f g. induction l as [|x l IH]; cbn [map all_of]; [reflexivity|]. rewrite IH. reflexivity. }
  rewrite Hmap.
  destruct (all_of_between (fun i => adm_db_piece lt_ ge_ K thr g (of_spiece i)) (P 0 (M / 10000000)) (P (M / 10000000) 0) sh_result) as (b & Eb & B1 & B2).
  - intros i Hi. pose proof (result_only i Hi) as Ho. destruct i as [|p|e|f]; cbn [of_spiece adm_db_piece P].
    + exists true. auto.
    + apply Hpt, Ho.
    + destruct Ho as (_ & O1 & O2 & _). unfold adm_db_ends. cbn [k_edge_first k_edge_last sh_kernel].
      destruct (Hpt _ O1) as (r1 & -> & R1 & R2). destruct (Hpt _ O2) as (r2 & E2 & R3 & R4). cbn [obind]. rewrite E2.
      exists (r1 && r2). split; [destruct r1; reflexivity|]. split.
      * intros [X1 X2]. rewrite R1, R3 by assumption. reflexivity.
      * intros X. apply andb_prop in X as [-> ->]. auto.
    + destruct Ho.
  - exists b. split; [exact Eb|]. split.
    + intros X1 X2. apply B1. intros i Hi. destruct i as [|p|e|f]; cbn [P]; auto.
    + intros X. specialize (B2 X). split; intros j Hj; apply (B2 _ Hj).
Qed.

(** *** Magnitudes *)
Lemma sh_mag thr : exists b, adm_mag ge_ K thr (map of_spiece sh_result) = Ok b /\
  (b = true <-> forall e, In (SpEdge e) sh_result -> thr <= len e).
Proof.
  unfold adm_mag.
  assert (forall (f : @sh_piece R F E -> outcome bool) (g : spiece R F E -> @sh_piece R F E) l, all_of f (map g l) = all_of (fun x => f (g x)) l) as Hmap.
  { clear. intros f g. induction l as [|x l IH]; cbn [map all_of]; [reflexivity|]. rewrite IH. reflexivity. }
  rewrite Hmap.
  set (P := fun (i : spiece R F E) => match i with SpEdge e => thr <= len e | _ => True end).
  destruct (all_of_between (fun i => adm_mag_piece ge_ K thr (of_spiece i)) P P sh_result) as (b & Eb & B1 & B2).
  - intros i Hi. pose proof (result_only i Hi) as Ho. destruct i as [|p|e|f]; cbn [of_spiece P].
    + exists true. auto.
    + exists true. auto.
    + destruct Ho as (Ho & _). change (adm_mag_piece ge_ K thr (PEdge e)) with (obind (so_length S e) (fun m => Ok (nleb thr m))). rewrite Ho. cbn [obind].
      exists (nleb thr (len e)). split; [reflexivity|]. rn. split; [apply Rleb_true|apply Rleb_true].
    + destruct Ho.
  - exists b. split; [exact Eb|]. split.
    + intros X e He. apply (B2 X _ He).
    + intros X. apply B1. intros [|p|e|f] Hi; cbn [P]; auto.
Qed.

Lemma result_filled : ~ In SpEmpty sh_result -> sh_result <> [] -> exists x, both (sset g1) (sset g2) x.
Proof.
  intros Hn Hne. destruct sh_result as [|i r] eqn:Er; [tauto|]. assert (In i sh_result) as Hi by (rewrite Er; left; reflexivity).
  pose proof (result_only i Hi) as Ho. destruct i as [|p|e|f]; [destruct Hn; left; reflexivity|exists p; exact Ho| |tauto]. exists (so_first S e). exact (proj1 (proj2 Ho)).
Qed.
Lemma result_empty : sh_result = [SpEmpty] -> forall x, ~ both (sset g1) (sset g2) x.
Proof.
  intros Er x Hx. apply operand_sets in Hx as [X1 X2].
  destruct (face_face_reach skernel fpts epts f1 f2 eps (sp_pos _ _ _ _ _ _ _ _ _ _ _ _ _ _ _ HP) (sp_box1 _ _ _ _ _ _ _ _ _ _ _ _ _ _ _ HP) (sp_box2 _ _ _ _ _ _ _ _ _ _ _ _ _ _ _ HP)
    (sp_all _ _ _ _ _ _ _ _ _ _ _ _ _ _ _ HP) x X1 X2) as (i & y & Hi & Hy & _).
  change (In i sh_result) in Hi. rewrite Er in Hi. destruct Hi as [<-|[]]. exact Hy.
Qed.

Lemma eval_shapes : ~ no_constraint h ->
  exists b, sh_evaluate top S (crun 0 (rev h)) g1 g2 = Ok b /\
    (sh_kept S fpts wpts N len h t1 t2 0 (M / 10000000) g1 g2 sh_result -> b = true) /\
    (b = true -> sh_kept S fpts wpts N len h t1 t2 (M / 10000000) 0 g1 g2 sh_result).
Proof.
  intros Hn. unfold sh_evaluate, evaluate. rewrite (active_test h Hn). cbn [k_intersect sh_kernel k_distance k_angle k_dim].
  rewrite (sh_eval_intersect h g1 g2 u1 u2 (sp_u1 _ _ _ _ _ _ _ _ _ _ _ _ _ _ _ HP) (sp_u2 _ _ _ _ _ _ _ _ _ _ _ _ _ _ _ HP)), the_intersection. cbn [obind].
  pose proof (settings_rev 0 h) as ES. set (c := crun 0 (rev h)) in *. unfold abs_of in ES. injection ES as S1 S2 S3 S4 S5 S6.
  unfold sh_kept, sh_angle_kept, sh_end_kept. rewrite <- S1, <- S2, <- S3, <- S4.
  destruct (proj1 (face_face_kinds skernel f1 f2 eps)) as [Er|[Hne He]].
  - change (sh_result = [SpEmpty]) in Er. pose proof (result_empty Er) as Hno. rewrite Er. cbn [map of_spiece is_empty forallb is_empty_piece negb andb].
    assert (forall X : spiece R F E, X <> SpEmpty -> ~ In X [SpEmpty]) as Hv by (intros X HX [C|[]]; congruence).
    destruct (useMinDistance c).
    + destruct (sp_dist _ _ _ _ _ _ _ _ _ _ _ _ _ _ _ HP) as (d & Hd & Ed).
      assert (sh_distance S g1 g2 = Ok d) as -> by (pose proof (sp_one _ _ _ _ _ _ _ _ _ _ _ _ _ _ _ HP) as O; destruct g1, g2; [destruct O|exact Ed..]).
      cbn [obind holds_if_set]. exists (nleb (minDistance c) d). split; [reflexivity|]. split.
      * intros (K1 & _). specialize (K1 Hno d Hd). rn. apply Rleb_true. lra.
      * intros C. split; [|split; intros j Hj; exfalso; revert Hj; apply Hv; discriminate].
        intros _ d' Hd'. rewrite (set_dist_unique _ _ _ _ Hd' Hd). revert C. rn. apply Rleb_true.
    + exists true. split; [reflexivity|]. split; [reflexivity|]. intros _. split; [intros _; exact I|]. split; intros j Hj; exfalso; revert Hj; apply Hv; discriminate.
  - change (sh_result <> []) in Hne. change (~ In SpEmpty sh_result) in He. destruct (result_filled He Hne) as (x0 & Hx0).
    assert (is_empty (map of_spiece sh_result) = false) as ->.
    { clear -Hne He. destruct sh_result as [|i r]; [tauto|]. cbn [map is_empty forallb]. destruct i; [destruct He; left; reflexivity|reflexivity..]. }
    cbn [negb].
    assert (adm_dim K (2 - 1)%Z (map of_spiece sh_result) = true) as ->.
    { unfold adm_dim. apply forallb_forall. intros i Hi. apply in_map_iff in Hi as (j & <- & Hj). pose proof (result_only j Hj) as Ho.
      destruct j; [reflexivity..|tauto]. }
    cbn [negb]. rewrite andb_false_r.
    destruct (sh_mag (minIsMagnitude c)) as (bm & Em & Hm).
    destruct (sh_angles Hne He) as (m & Ea & Ha).
    destruct (sh_off g1 t1 (minIsDistance c)) as (b1 & Eb1 & B1 & B2); [left; auto|].
    destruct (sh_off g2 t2 (minIsDistance c)) as (b2 & Eb2 & B3 & B4); [right; auto|].
    exists ((if useMinIsMagnitude c then bm else true) && ((if useMinIsAngle c then nleb (minIsAngle c) m else true) && (if useMinIsDistance c then b1 && b2 else true))).
    split; [|split].
    + rewrite Em, Ea, Eb1, Eb2. rn.
      assert (negb (Rltb m (minIsAngle c)) = Rleb (minIsAngle c) m) as Hab by (rcmp; rcmp; try reflexivity; lra).
      destruct (useMinIsMagnitude c), (useMinIsAngle c), (useMinIsDistance c), bm; cbn [obind negb andb]; rewrite ?Hab;
        try destruct (Rleb (minIsAngle c) m); cbn [obind negb andb]; try reflexivity; destruct b1; cbn [negb andb]; reflexivity.
    + intros (_ & K1 & K2).
      assert ((if useMinIsMagnitude c then bm else true) = true) as ->.
      { destruct (useMinIsMagnitude c); [|reflexivity]. apply Hm. intros e Hi. apply (K2 e Hi). }
      assert ((if useMinIsAngle c then nleb (minIsAngle c) m else true) = true) as ->.
      { destruct (useMinIsAngle c); [|reflexivity]. rn. apply Rleb_true. apply Ha. split.
        - intros p Hp. apply (K1 p Hp).
        - intros e Hi. apply (K2 e Hi). }
      destruct (useMinIsDistance c); [|reflexivity]. cbn [andb holds_if_set] in *. rewrite B1, B3; [reflexivity|..].
      * intros p Hp. apply (K1 p Hp).
      * intros e Hi. split; apply (K2 e Hi).
      * intros p Hp. apply (K1 p Hp).
      * intros e Hi. split; apply (K2 e Hi).
    + intros C. apply andb_prop in C as [C1 C2]. apply andb_prop in C2 as [C2 C3].
      split; [intros Hno; destruct (Hno x0 Hx0)|].
      assert (Hang : match (if useMinIsAngle c then Some (minIsAngle c) else None) with
        | Some thr => (forall p, In (SpPoint p) sh_result -> forall x, angle_between (sh_normal N g1 p) (sh_normal N g2 p) x -> thr <= x) /\
                      (forall e, In (SpEdge e) sh_result -> forall p, In p (stations S e) -> forall x, angle_between (sh_normal N g1 p) (sh_normal N g2 p) x -> thr <= x)
        | None => True end).
      { destruct (useMinIsAngle c); [|exact I]. apply Ha. revert C2. rn. apply Rleb_true. }
      assert (Hoff : match (if useMinIsDistance c then Some (minIsDistance c) else None) with
        | Some thr => b1 = true /\ b2 = true | None => True end).
      { destruct (useMinIsDistance c); [|exact I]. apply andb_prop in C3. exact C3. }
      split.
      * intros p Hp. split.
        -- destruct (useMinIsAngle c); [|exact I]. exact (proj1 Hang p Hp).
        -- destruct (useMinIsDistance c); [|exact I]. destruct Hoff as [O1 O2]. split; [apply (proj1 (B2 O1) p Hp)|apply (proj1 (B4 O2) p Hp)].
      * intros e Hi. split; [destruct (useMinIsMagnitude c); [apply Hm; assumption|exact I]|]. split.
        -- intros p Hp. destruct (useMinIsAngle c); [|exact I]. exact (proj2 Hang e Hi p Hp).
        -- destruct (useMinIsDistance c); [|split; exact I]. destruct Hoff as [O1 O2].
           destruct (proj2 (B2 O1) e Hi) as [D1 D2]. destruct (proj2 (B4 O2) e Hi) as [D3 D4]. split; split; assumption.
Qed.

Lemma eval_shapes_all : ~ no_constraint h ->
  exists r b, sh_intersect_eps S g1 g2 eps = Ok (map of_spiece r) /\
    pieces_within fpts epts r (sset g1) (sset g2) /\ pieces_reach fpts epts r eps (sset g1) (sset g2) /\ (forall f, ~ In (SpFace f) r) /\
    sh_evaluate top S (crun 0 (rev h)) g1 g2 = Ok b /\
    (sh_kept S fpts wpts N len h t1 t2 0 (M / 10000000) g1 g2 r -> b = true) /\
    (b = true -> sh_kept S fpts wpts N len h t1 t2 (M / 10000000) 0 g1 g2 r).
Proof.
  intros Hn. destruct (eval_shapes Hn) as (b & B). exists sh_result, b. split; [exact the_intersection|]. split; [|split; [|split; [|exact B]]].
  - intros i x Hi Hx. apply operand_sets.
    apply (face_face_within skernel fpts epts f1 f2 eps (sp_pos _ _ _ _ _ _ _ _ _ _ _ _ _ _ _ HP) (sp_common _ _ _ _ _ _ _ _ _ _ _ _ _ _ _ HP) i x Hi Hx).
  - intros x X1 X2. destruct (proj2 (operand_sets x) (conj X1 X2)) as [Y1 Y2].
    apply (face_face_reach skernel fpts epts f1 f2 eps (sp_pos _ _ _ _ _ _ _ _ _ _ _ _ _ _ _ HP) (sp_box1 _ _ _ _ _ _ _ _ _ _ _ _ _ _ _ HP) (sp_box2 _ _ _ _ _ _ _ _ _ _ _ _ _ _ _ HP)
      (sp_all _ _ _ _ _ _ _ _ _ _ _ _ _ _ _ HP) x Y1 Y2).
  - intros f Hf. exact (result_only (SpFace f) Hf).
Qed.
End Pair.

End Sh.

Section Other.
Context {F E W : Type}.
Variables (top : R) (S : shape_ops R F E W).
Notation K := (sh_kernel top S).
(** *** Overlapping faces *)
Lemma sh_overlap_rejected h g1 g2 u1 u2 r f : ~ no_constraint h -> sh_eps S g1 = Ok u1 -> sh_eps S g2 = Ok u2 ->
  sh_intersect_eps S g1 g2 (is_eps h u1 u2) = Ok r -> In (PFace f) r -> ~ equi_dim_allowed h = true ->
  sh_evaluate top S (crun 0 (rev h)) g1 g2 = Ok false.
Proof.
  intros Hn E1 E2 Er Hf Ha. unfold sh_evaluate, evaluate. rewrite (active_test h Hn). cbn [k_intersect sh_kernel k_dim].
  rewrite (sh_eval_intersect S h g1 g2 u1 u2 E1 E2), Er. cbn [obind].
  pose proof (settings_rev 0 h) as ES. set (c := crun 0 (rev h)) in *. unfold abs_of in ES. injection ES as S1 S2 S3 S4 S5 S6.
  assert (is_empty r = false) as ->.
  { destruct (is_empty r) eqn:C; [|reflexivity]. unfold is_empty in C. rewrite forallb_forall in C. specialize (C _ Hf). discriminate. }
  rewrite S6. destruct (equi_dim_allowed h); [tauto|].
  assert (adm_dim K (2 - 1)%Z r = false) as ->.
  { destruct (adm_dim K (2 - 1)%Z r) eqn:C; [|reflexivity]. unfold adm_dim in C. rewrite forallb_forall in C. specialize (C _ Hf). discriminate. }
  reflexivity.
Qed.
Lemma all_of_true {X} (f : X -> outcome bool) l x : all_of f l = Ok true -> In x l -> f x = Ok true.
Proof.
  induction l as [|y l IH]; cbn [all_of]; [intros _ []|]. intros E0 [<-|Hx].
  - destruct (f y) as [[|]| | |]; cbn [obind] in E0; congruence.
  - apply IH; [|exact Hx]. destruct (f y) as [[|]| | |]; cbn [obind] in E0; congruence.
Qed.
Lemma sh_overlap_distance h g1 g2 u1 u2 r f thr : sh_eps S g1 = Ok u1 -> sh_eps S g2 = Ok u2 ->
  sh_intersect_eps S g1 g2 (is_eps h u1 u2) = Ok r -> In (PFace f) r -> active_is_distance h = Some thr ->
  sh_evaluate top S (crun 0 (rev h)) g1 g2 <> Ok true.
Proof.
  intros E1 E2 Er Hf Ha. assert (Hn : ~ no_constraint h) by (unfold no_constraint; intuition congruence).
  unfold sh_evaluate, evaluate. rewrite (active_test h Hn). cbn [k_intersect sh_kernel k_dim].
  rewrite (sh_eval_intersect S h g1 g2 u1 u2 E1 E2), Er. cbn [obind].
  pose proof (settings_rev 0 h) as ES. set (c := crun 0 (rev h)) in *. unfold abs_of in ES. injection ES as S1 S2 S3 S4 S5 S6.
  assert (is_empty r = false) as ->.
  { destruct (is_empty r) eqn:C; [|reflexivity]. unfold is_empty in C. rewrite forallb_forall in C. specialize (C _ Hf). discriminate. }
  cbn [negb]. rewrite Ha in S4. destruct (useMinIsDistance c); [|discriminate]. cbn [negb].
  destruct (_ && _); [discriminate|].
  do 2 (match goal with |- obind ?o _ <> _ => destruct o as [[|]| | |] end; cbn [obind negb]; try discriminate).
  destruct (adm_db _ _ _ _ g1 r) as [[|]| | |] eqn:C; cbn [obind negb]; try discriminate. 
  apply (all_of_true _ _ _ C) in Hf. discriminate.
Qed.
(** *** Angles between cylinder surfaces and face shapes *)
Lemma angles_thrown (g g' : ageo R) is i :
  (forall j, In j is -> (exists x, int_angle top g g' j = Ok x) \/ int_angle top g g' j = Throw RuntimeError) ->
  In i is -> int_angle top g g' i = Throw RuntimeError -> int_angles top g g' is = Throw RuntimeError.
Proof.
  intros Hall Hi Et. unfold int_angles.
  assert (HT : forall l, fold_left (fun r i => obind r (fun m => obind (int_angle top g g' i) (fun x => Ok (nmin m x)))) l (Throw RuntimeError) = Throw RuntimeError).
  { induction l as [|j l IHl]; cbn; [reflexivity|exact IHl]. }
  assert (HA : forall l m, (forall j, In j l -> (exists x, int_angle top g g' j = Ok x) \/ int_angle top g g' j = Throw RuntimeError) -> In i l ->
    fold_left (fun r i => obind r (fun m => obind (int_angle top g g' i) (fun x => Ok (nmin m x)))) l (Ok m) = Throw RuntimeError).
  { induction l as [|j l IHl]; intros m Hl; [intros []|]. intros [<-|Hj]; cbn [fold_left obind].
    - rewrite Et. cbn [obind]. apply HT.
    - destruct (Hl j (or_introl eq_refl)) as [[x ->] | ->]; cbn [obind]; [|apply HT]. apply IHl; [intros k Hk; apply Hl; right; exact Hk|exact Hj]. }
  apply HA; assumption.
Qed.
Lemma surf_shape_angle g1 g2 r i : surf_and_shape g1 g2 -> In i r -> (forall f, i <> PFace f) -> sh_angle top S g1 g2 r = Throw RuntimeError.
Proof.
  intros Hg Hi Hf. destruct g1 as [[k1|c1]|s1], g2 as [[k2|c2]|s2]; cbn in Hg; try tauto; unfold sh_angle; cbn [sh_ageo ent_ageo].
  - apply (angles_thrown _ _ _ (sh_apiece S i)); [|apply in_map, Hi|destruct i; try reflexivity; destruct (Hf f); reflexivity].
    intros j _. destruct j; cbn; eauto.
  - apply (angles_thrown _ _ _ (sh_apiece S i)); [|apply in_map, Hi|destruct i; try reflexivity; destruct (Hf f); reflexivity].
    intros j _. destruct j; cbn; eauto.
Qed.
Lemma surf_shape_throws h g1 g2 u1 u2 r thr : sh_eps S g1 = Ok u1 -> sh_eps S g2 = Ok u2 -> surf_and_shape g1 g2 ->
  sh_intersect_eps S g1 g2 (is_eps h u1 u2) = Ok r -> is_empty r = false -> (forall f, ~ In (PFace f) r) ->
  active_angle h = Some thr -> active_magnitude h = None ->
  sh_evaluate top S (crun 0 (rev h)) g1 g2 = Throw RuntimeError.
Proof.
  intros E1 E2 Hg Er He Hf Ha Hm. assert (Hn : ~ no_constraint h) by (unfold no_constraint; intuition congruence).
  unfold sh_evaluate, evaluate. rewrite (active_test h Hn). cbn [k_intersect sh_kernel k_dim k_angle].
  rewrite (sh_eval_intersect S h g1 g2 u1 u2 E1 E2), Er. cbn [obind].
  pose proof (settings_rev 0 h) as ES. set (c := crun 0 (rev h)) in *. unfold abs_of in ES. injection ES as S1 S2 S3 S4 S5 S6.
  rewrite He. cbn [negb].
  assert (exists i, In i r) as (i & Hi) by (destruct r as [|i r]; [discriminate|exists i; left; reflexivity]).
  assert (forall j, In j r -> (piece_dim K j <= 1)%Z) as Hd.
  { intros j Hj. assert (exists r', r = map of_spiece r') as (r' & ->).
    { revert Er. destruct g1 as [[k1|c1]|s1], g2 as [[k2|c2]|s2]; cbn in Hg; try tauto; cbn [sh_intersect_eps]; intros Er; injection Er as <-; eauto. }
    apply in_map_iff in Hj as (k & <- & Hk). destruct k; cbn; try lia. destruct (Hf f). apply in_map_iff. exists (SpFace f). auto. }
  assert (adm_dim K (2 - 1)%Z r = true) as ->.
  { unfold adm_dim. apply forallb_forall. intros j Hj. apply decidable.bool_decide_eq_true_2. apply (Hd j Hj). }
  cbn [negb]. rewrite andb_false_r. rewrite Hm in S3. destruct (useMinIsMagnitude c); [discriminate|]. cbn [obind negb].
  rewrite Ha in S2. destruct (useMinIsAngle c); [|discriminate].
  rewrite (surf_shape_angle g1 g2 r i Hg Hi); [reflexivity|]. intros f ->. apply (Hf f Hi).
Qed.
End Other.
