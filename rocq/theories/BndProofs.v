From Coq Require Import Reals List Lra Arith.
From Verif Require Import Base NumModel VecModel LinModel RoundModel PolyModel IntModel DistModel BndModel GeoSpec LinSpec RoundSpec PolySpec
  DistSpec IntSpec EvalSpec BndSpec GeoLemmas LinProofs PolyProofs PolyBridge QuadProofs DistProofs EvalProofs.
Import ListNotations.
Local Open Scope R_scope.

Lemma set_dist_ext (S T T' : pt -> Prop) d : (forall x, T x <-> T' x) -> set_dist S T d -> set_dist S T' d.
Proof.
  intros HT [(x & y & Hx & Hy & E) M]. split.
  - exists x, y. split; [exact Hx|]. split; [apply HT, Hy|exact E].
  - intros x' y' Hx' Hy'. apply M; [exact Hx'|apply HT, Hy'].
Qed.
Lemma set_dist_unique (S T : pt -> Prop) d d' : set_dist S T d -> set_dist S T d' -> d = d'.
Proof.
  intros [(x & y & Hx & Hy & E) M] [(x' & y' & Hx' & Hy' & E') M'].
  pose proof (M x' y' Hx' Hy'). pose proof (M' x y Hx Hy). lra.
Qed.
Lemma set_dist_union (S T T' : pt -> Prop) d d' : set_dist S T d -> set_dist S T' d' ->
  set_dist S (fun x => T x \/ T' x) (Rmin d d').
Proof.
  intros [(x & y & Hx & Hy & E) M] [(x' & y' & Hx' & Hy' & E') M']. unfold Rmin. destruct (Rle_dec d d').
  - split; [exists x, y; auto|]. intros u v Hu [Hv|Hv]; [apply M; assumption|]. specialize (M' u v Hu Hv). lra.
  - split; [exists x', y'; auto|]. intros u v Hu [Hv|Hv]; [|apply M'; assumption]. specialize (M u v Hu Hv). lra.
Qed.

Section Bnd.
Context {H G : Type}.
Variable O : bnd_ops R H G.
Variables (pts outer whole : H -> pt -> Prop).
Variable top : R.
Notation edge_computed h e := (computed O pts h (bo_segment O e) (on_segment (s_src e) (s_tgt e))).

(** the minimum over edges *)
Lemma edges_fold h n (edge : nat -> outcome (segment R)) (es : list (segment R)) : map edge (seq 0 n) = map Ok es ->
  (forall e, In e es -> edge_computed h e) ->
  exists ds, Forall2 (fun e d => set_dist (pts h) (on_segment (s_src e) (s_tgt e)) d) es ds /\
    edges_to top O h n edge = Ok (fold_left Rmin ds top).
Proof.
  unfold edges_to. generalize (seq 0 n) as l. intros l. generalize top as m. revert es. induction l as [|i l IH]; intros es m E HC.
  - destruct es; [|discriminate]. exists []. split; [constructor|reflexivity].
  - destruct es as [|e es]; [discriminate|]. cbn [map] in E. injection E as E1 E2.
    destruct (HC e (or_introl eq_refl)) as (d & Hd & Ed).
    destruct (IH es (Rmin m d) E2) as (ds & HF & Eds); [intros e' He'; apply HC; right; exact He'|].
    exists (d :: ds). split; [constructor; assumption|]. cbn [fold_left]. rewrite <- Eds.
    rewrite E1. cbn [obind]. rewrite Ed. cbn [obind]. rewrite nmin_Rmin. reflexivity.
Qed.
Lemma Forall2_left {B C} (P : B -> C -> Prop) l l' b : Forall2 P l l' -> In b l -> exists c, In c l' /\ P b c.
Proof.
  induction 1 as [|b' c' l l' Hp HF IH]; intros Hb; [destruct Hb|]. destruct Hb as [->|Hb]; [exists c'; split; [left; reflexivity|exact Hp]|].
  destruct (IH Hb) as (c & Hc & Pc). exists c. split; [right; exact Hc|exact Pc].
Qed.
Lemma Forall2_right {B C} (P : B -> C -> Prop) l l' c : Forall2 P l l' -> In c l' -> exists b, In b l /\ P b c.
Proof.
  induction 1 as [|b' c' l l' Hp HF IH]; intros Hb; [destruct Hb|]. destruct Hb as [->|Hb]; [exists b'; split; [left; reflexivity|exact Hp]|].
  destruct (IH Hb) as (b & Hc & Pc). exists b. split; [right; exact Hc|exact Pc].
Qed.
Lemma edges_dist (S : pt -> Prop) es ds d : Forall2 (fun e d => set_dist S (on_segment (s_src e) (s_tgt e)) d) es ds ->
  set_dist S (seg_set es) d -> d <= top -> fold_left Rmin ds top = d.
Proof.
  intros HF [(x & y & Hx & (e & He & Hy) & Ed) M] Ht. destruct (fold_min_le ds top) as [H1 H2].
  apply Rle_antisym.
  - destruct (Forall2_left _ _ _ e HF He) as (d' & Hd' & _ & M'). specialize (H2 d' Hd'). specialize (M' x y Hx Hy). lra.
  - destruct (fold_min_in ds top) as [->|Hi]; [exact Ht|].
    destruct (Forall2_right _ _ _ _ HF Hi) as (e' & He' & (x' & y' & Hx' & Hy' & E') & _). rewrite E'. apply M; [exact Hx'|].
    exists e'. auto.
Qed.

Lemma quad_to h q d : computes O pts outer h (TQuad q) -> set_dist (pts h) (edge_set (FQuad q)) d -> d <= top ->
  edges_to top O h 4 (quad_edge q) = Ok d.
Proof.
  intros HC Hd Ht. set (es := quad_segs (q_0 q) (q_1 q) (q_2 q) (q_3 q)).
  destruct (edges_fold h 4 (quad_edge q) es eq_refl) as (ds & HF & ->).
  - cbn [computes corners] in HC. unfold around in HC. rewrite edges4 in HC.
    intros e [<-|[<-|[<-|[<-|[]]]]]; cbn [s_src s_tgt].
    + apply (HC (q_0 q) (q_1 q)). cbn; auto.
    + apply (HC (q_1 q) (q_3 q)). cbn; auto.
    + apply (HC (q_2 q) (q_0 q)). cbn; auto.
    + apply (HC (q_3 q) (q_2 q)). cbn; auto 6.
  - f_equal. apply (edges_dist _ es ds d HF); [|exact Ht].
    apply (set_dist_ext _ (edge_set (FQuad q))); [|exact Hd]. intros x. symmetry. apply quad_segs_set.
Qed.
Lemma poly_to h p d : computes O pts outer h (TPoly p) -> set_dist (pts h) (edge_set (FPoly p)) d -> d <= top ->
  edges_to top O h (length (po_cs p)) (poly_edge p) = Ok d.
Proof.
  intros [[cs E] HC] Hd Ht. pose proof (pg_edges cs p E) as Eg.
  assert (Ecs : po_cs p = cs).
  { unfold make_poly in E. destruct (Nat.ltb (length cs) 3); [discriminate|]. injection E as <-. reflexivity. }
  destruct (edges_fold h (length (po_cs p)) (poly_edge p) (segs cs) Eg) as (ds & HF & ->).
  - intros e He. unfold segs in He. apply in_map_iff in He as ([a b] & <- & Hab). apply HC. cbn [corners]. rewrite Ecs. exact Hab.
  - f_equal. apply (edges_dist _ (segs cs) ds d HF); [|exact Ht].
    apply (set_dist_ext _ (edge_set (FPoly p))); [|exact Hd]. intros x. cbn [edge_set]. rewrite Ecs. symmetry. apply segs_set.
Qed.
Lemma one_to h h' (S T : pt -> Prop) d : computed O pts h h' S -> (forall x, T x <-> S x) -> set_dist (pts h) T d -> bo_dist O h h' = Ok d.
Proof.
  intros (d' & Hd' & ->) HT Hd. f_equal. apply (set_dist_unique (pts h) S); [exact Hd'|]. apply (set_dist_ext _ T S _ HT Hd).
Qed.

Lemma shape_bound h (t : target R H G) d : computes O pts outer h t -> unpierced outer whole t ->
  set_dist (pts h) (target_bound whole t) d -> d <= top ->
  match t with
  | TDisk _ | TQuad _ | TPoly _ | TFace _ => shape_to_boundary top O h t = Some (Ok d)
  | TSurf _ | TSolid _ | TOther _ => shape_to_boundary top O h t = None
  end.
Proof.
  intros HC HU Hd Ht. destruct t; cbn [shape_to_boundary]; try reflexivity; f_equal.
  - apply (one_to h _ (on_ellipse (disk_ellipse d0)) (on_ellipse d0)); [apply HC, disk_set|intros x; symmetry; apply disk_set|exact Hd].
  - apply quad_to; assumption.
  - apply poly_to; assumption.
  - apply (one_to h _ (outer f) (whole f)); assumption.
Qed.
Lemma geo_bound g (t : target R H G) d : computes O pts outer (bo_geo O g) t -> unpierced outer whole t ->
  set_dist (pts (bo_geo O g)) (target_bound whole t) d ->
  match t with
  | TDisk _ | TSurf _ | TFace _ | TSolid _ => geo_to_boundary O g t = Ok d
  | TQuad _ | TPoly _ | TOther _ => geo_to_boundary O g t = Throw RuntimeError
  end.
Proof.
  intros HC HU Hd. destruct t; cbn [geo_to_boundary]; try reflexivity.
  - apply (one_to _ _ (on_ellipse (disk_ellipse d0)) (on_ellipse d0)); [apply HC, disk_set|intros x; symmetry; apply disk_set|exact Hd].
  - destruct HC as [(d1 & H1 & ->) (d2 & H2 & ->)]. cbn [obind]. f_equal. rewrite nmin_Rmin.
    apply (set_dist_unique (pts (bo_geo O g)) (fun x => on_ellipse (c_bot c) x \/ on_ellipse (c_top c) x)); [apply set_dist_union; assumption|exact Hd].
  - apply (one_to _ _ (outer f) (whole f)); assumption.
  - apply (one_to _ _ (outer s) (whole s)); assumption.
Qed.
(** the kernel gives up *)
Lemma edges_give_up h n edge e : (forall h', bo_dist O h h' = Throw RuntimeError) -> edge 0%nat = Ok e ->
  edges_to top O h (S n) edge = Throw RuntimeError.
Proof.
  intros HT E. unfold edges_to. cbn [seq fold_left]. rewrite E. cbn [obind]. rewrite HT. cbn [obind].
  generalize (seq 1 n) as l. induction l as [|i l IH]; [reflexivity|]. cbn [fold_left obind]. exact IH.
Qed.
Lemma gives_up h (t : target R H G) : (forall h', bo_dist O h h' = Throw RuntimeError) ->
  match t with
  | TDisk _ | TFace _ | TQuad _ => shape_to_boundary top O h t = Some (Throw RuntimeError)
  | TPoly p => (exists cs, make_poly cs = Ok p) -> shape_to_boundary top O h t = Some (Throw RuntimeError)
  | TSurf _ | TSolid _ | TOther _ => shape_to_boundary top O h t = None
  end /\
  forall g, bo_geo O g = h -> geo_to_boundary O g t = Throw RuntimeError.
Proof.
  intros HT. split.
  - destruct t; cbn [shape_to_boundary]; rewrite ?HT; try reflexivity.
    + f_equal. exact (edges_give_up h 3 _ _ HT eq_refl).
    + intros [cs E]. f_equal. pose proof (pg_edges cs p E) as Eg.
      assert (L : (3 <= length (po_cs p))%nat).
      { unfold make_poly in E. destruct (Nat.ltb (length cs) 3) eqn:El; [discriminate|]. injection E as <-. apply Nat.ltb_ge in El. exact El. }
      destruct (length (po_cs p)) as [|n]; [inversion L|]. cbn [seq map] in Eg. destruct (segs cs) as [|e es]; [discriminate|].
      injection Eg as E1 _. exact (edges_give_up h n _ _ HT E1).
  - intros g <-. destruct t; cbn [geo_to_boundary]; rewrite ?HT; reflexivity.
Qed.
End Bnd.
