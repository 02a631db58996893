(** Distances to boundaries and lengths in double precision. *)

From Coq Require Import ZArith Reals List Lra Lia Psatz Bool.
From Flocq Require Import Core.Core IEEE754.BinarySingleNaN IEEE754.PrimFloat.
From Coq Require Import Floats.
From Verif Require Import Base ConstraintsModel NumModel VecModel LinModel RoundModel PolyModel DistModel IntModel AngModel EvalModel
  GeoSpec PolySpec DistSpec DblSpec GeoLemmas PolyProofs QuadProofs DistProofs DblLemmas DblProofs DblLen LinDblSpec LinDblBase LinDblFoot LinDblProofs LinDblSeg LinDblDist RndDblProofs BdDblSpec.
Import ListNotations.
Local Open Scope R_scope.

(** ** Edges *)
Definition val_seg (e : segment PrimFloat.float) : segment R := mkSeg (val3 (s_src e)) (val3 (s_tgt e)).
Definition fsegs (cs : list (V3 PrimFloat.float)) : list (segment PrimFloat.float) := map (corners_edge cs) (seq 0 (length cs)).
Lemma fpoly_cs cs (pg : poly PrimFloat.float) : make_poly cs = Ok pg -> po_cs pg = cs /\ (3 <= length cs)%nat.
Proof. unfold make_poly. destruct (Nat.ltb (length cs) 3) eqn:E; [discriminate|]. apply Nat.ltb_ge in E. intros H. injection H as <-. auto. Qed.
Lemma fpoly_edges cs (pg : poly PrimFloat.float) : make_poly cs = Ok pg -> map (poly_edge pg) (seq 0 (length (po_cs pg))) = map Ok (fsegs cs).
Proof.
  intros E. destruct (fpoly_cs cs pg E) as [-> H]. unfold fsegs. rewrite map_map. apply map_ext_in. intros i Hi. apply in_seq in Hi.
  unfold poly_edge. rewrite (proj1 (fpoly_cs cs pg E)). destruct (Nat.ltb_spec i (length cs)); [reflexivity|lia].
Qed.
Lemma at_val (cs : list (V3 PrimFloat.float)) i : (i < length cs)%nat -> at_ (map val3 cs) i = val3 (at_ cs i).
Proof. intros H. unfold at_. rewrite (nth_indep _ origin (val3 origin)) by (rewrite map_length; exact H). apply map_nth. Qed.
Lemma fsegs_val cs : (3 <= length cs)%nat -> map val_seg (fsegs cs) = segs (map val3 cs).
Proof.
  intros H. destruct (make_poly (map val3 cs)) as [pr|e| |] eqn:E; unfold make_poly in E; rewrite map_length in E;
    destruct (Nat.ltb_spec (length cs) 3); try lia; try discriminate.
  assert (make_poly (map val3 cs) = Ok pr) as E'.
  { unfold make_poly. rewrite map_length. destruct (Nat.ltb_spec (length cs) 3); [lia|exact E]. }
  pose proof (pg_edges _ pr E') as P. assert (po_cs pr = map val3 cs) as Ec by (injection E as <-; reflexivity). rewrite Ec, map_length in P.
  assert (map Ok (map val_seg (fsegs cs)) = map (@Ok (segment R)) (segs (map val3 cs))) as Q.
  { rewrite <- P. unfold fsegs. rewrite !map_map. apply map_ext_in. intros i Hi. apply in_seq in Hi. unfold poly_edge. rewrite Ec, map_length.
    destruct (Nat.ltb_spec i (length cs)); [|lia]. unfold val_seg, corners_edge. cbn [s_src s_tgt]. rewrite map_length, !at_val; [reflexivity| |lia].
    apply Nat.mod_upper_bound. lia. }
  revert Q. generalize (map val_seg (fsegs cs)) (segs (map val3 cs)). induction l as [|a l IH]; intros [|b l'] Q; try discriminate; [reflexivity|].
  cbn in Q. injection Q as Q1 Q2. f_equal; auto.
Qed.
Lemma fsegs_in cs e : In e (fsegs cs) -> In (s_src e) cs /\ In (s_tgt e) cs.
Proof.
  intros H. apply in_map_iff in H as (i & <- & Hi). apply in_seq in Hi. cbn [corners_edge s_src s_tgt]. unfold at_.
  split; apply nth_In; [lia|]. apply Nat.mod_upper_bound. lia.
Qed.

(** ** Minima *)
Lemma fold_nmin l top : number top -> (forall x, In x l -> number x) ->
  let m := fold_left nmin l top in number m /\ val m <= val top /\ (forall x, In x l -> val m <= val x) /\ (m = top \/ In m l).
Proof.
  revert top. induction l as [|x l IH]; intros top Nt Nl; cbn [fold_left].
  - repeat split; [exact Nt|lra|intros x []|left; reflexivity].
  - assert (number (nmin top x) /\ val (nmin top x) <= val top /\ val (nmin top x) <= val x /\ (nmin top x = top \/ nmin top x = x)) as (N1 & L1 & L2 & C).
    { unfold nmin. cbn [nltb F_num]. pose proof (Nl x (or_introl eq_refl)) as Nx. destruct (x <? top)%float eqn:E.
      - apply (f_ltb _ _ Nx Nt) in E. repeat split; [exact Nx|lra|lra|right; reflexivity].
      - apply (f_ltb_false _ _ Nx Nt) in E. repeat split; [exact Nt|lra|lra|left; reflexivity]. }
    destruct (IH (nmin top x) N1 (fun y Hy => Nl y (or_intror Hy))) as (N2 & L3 & L4 & C2). split; [exact N2|]. split; [lra|]. split.
    + intros y [<-|Hy]; [lra|auto].
    + destruct C2 as [->|C2]; [|right; right; exact C2]. destruct C as [-> | ->]; [left; reflexivity|right; left; reflexivity].
Qed.
Lemma fold_ok_f {B C} (g : B -> outcome C) (h : C -> PrimFloat.float) l es m : map g l = map Ok es ->
  fold_left (fun m i => obind m (fun m => obind (g i) (fun e => Ok (nmin m (h e))))) l (Ok m) = Ok (fold_left nmin (map h es) m).
Proof.
  revert es m. induction l as [|i l IH]; intros [|e es] m Q; try discriminate; [reflexivity|]. cbn in Q. injection Q as Q1 Q2.
  cbn [fold_left map]. rewrite Q1. cbn [obind]. apply IH, Q2.
Qed.

Lemma fold_or_f {B C} (g : B -> outcome C) (h : C -> bool) l es (m : bool) : map g l = map Ok es ->
  fold_left (fun r i => obind r (fun r : bool => if r then Ok true else obind (g i) (fun e => Ok (h e)))) l (Ok m) = Ok (m || existsb h es).
Proof.
  revert es m. induction l as [|i l IH]; intros [|e es] m Q; try discriminate.
  - cbn. rewrite orb_false_r. reflexivity.
  - cbn in Q. injection Q as Q1 Q2. cbn [fold_left]. rewrite Q1. cbn [obind existsb].
    destruct m; [rewrite (IH es true Q2); reflexivity|]. rewrite (IH es (h e) Q2). reflexivity.
Qed.

Section Bd.
Variables (es : list (segment PrimFloat.float)) (p : V3 PrimFloat.float) (M N : R).
Hypothesis HM : moderate M.
Hypothesis Hp : point_upto M p.
Hypothesis HS : forall e, In e es -> side M (s_src e) (s_tgt e).
Hypothesis HN : forall e, In e es -> dist (val3 (s_src e)) (val3 (s_tgt e)) <= N.
Let slack := N / 10000000 + powerRZ 2 (-42) * M.

Lemma fbd_each e : In e es -> exists d, dist_to (on_segment (val3 (s_src e)) (val3 (s_tgt e))) (val3 p) d /\
  number (dist_segment p e) /\ d - slack <= val (dist_segment p e) <= d + powerRZ 2 (-45) * M.
Proof.
  intros He. destruct (HS e He) as (H1 & H2 & G & L1 & L2). pose proof (HN e He) as H3. destruct e as [s t]. cbn [s_src s_tgt] in *.
  destruct (seg_dist_ex (val3 s) (val3 t) (val3 p)) as [d Hd]; [exact (s_not_t s t L1)|]. exists d. split; [exact Hd|].
  destruct (c104_segment_distance_lemma s t p M d HM H1 H2 Hp G L1 L2 Hd) as [A B]. split; [exact A|].
  unfold dist in H3. rewrite (norm_swap (val3 s)) in H3. unfold slack. split; [|apply B]. eapply Rle_trans; [|apply B]. lra.
Qed.
Lemma slack_pos : es <> [] -> 0 <= slack /\ 0 <= powerRZ 2 (-45) * M.
Proof.
  intros H. destruct es as [|e l] eqn:E; [congruence|]. pose proof (HN e (or_introl eq_refl)) as K. pose proof (norm_nonneg (psub (val3 (s_src e)) (val3 (s_tgt e)))) as Q.
  assert (0 < M) as M0. { destruct HM as [A _]. rewrite two_p in A. pose proof (bpow_gt_0 radix2 (-400)). lra. }
  unfold dist in K. unfold slack. rewrite !two_p. pose proof (bpow_gt_0 radix2 (-42)). pose proof (bpow_gt_0 radix2 (-45)). split; [|nra].
  assert (0 <= bpow radix2 (-42) * M) by nra. lra.
Qed.
Let bset x := seg_set (map val_seg es) x.
Lemma bset_in x : bset x <-> exists e, In e es /\ on_segment (val3 (s_src e)) (val3 (s_tgt e)) x.
Proof.
  unfold bset, seg_set. split.
  - intros (e & He & Hx). apply in_map_iff in He as (e' & <- & He'). exists e'. auto.
  - intros (e & He & Hx). exists (val_seg e). split; [apply in_map, He|exact Hx].
Qed.
Lemma fbd_min top D : number top -> dist_to bset (val3 p) D -> D + powerRZ 2 (-45) * M <= val top ->
  let m := fold_left nmin (map (dist_segment p) es) top in number m /\ D - slack <= val m <= D + powerRZ 2 (-45) * M.
Proof.
  intros Nt [(y & Hy & Ed) Hm] Ht. apply bset_in in Hy as (e & He & Hy). destruct (slack_pos) as [S0 S1]; [intros ->; exact He|].
  destruct (fold_nmin (map (dist_segment p) es) top Nt) as (Nm & _ & Hle & Hin).
  { intros x Hx. apply in_map_iff in Hx as (e' & <- & He'). destruct (fbd_each e' He') as (_ & _ & A & _). exact A. }
  cbv zeta. split; [exact Nm|]. split.
  - destruct Hin as [->|Hi]; [lra|]. apply in_map_iff in Hi as (e' & E' & He'). rewrite <- E'. destruct (fbd_each e' He') as (d' & [(y' & Hy' & Ed') _] & _ & B & _).
    assert (D <= d'); [|lra]. rewrite <- Ed'. apply Hm. apply bset_in. exists e'. auto.
  - destruct (fbd_each e He) as (d' & [_ Hm'] & _ & _ & B). specialize (Hm' y Hy). rewrite Ed in Hm'. pose proof (Hle _ (in_map _ _ _ He)). lra.
Qed.
Lemma fbd_on eps D : number eps -> dist_to bset (val3 p) D ->
  let r := existsb (fun e => point_on_segment p e eps) es in
  (D + powerRZ 2 (-45) * M < val eps -> r = true) /\ (val eps + slack <= D -> r = false).
Proof.
  intros Ne [(y & Hy & Ed) Hm]. apply bset_in in Hy as (e & He & Hy). cbv zeta. split.
  - intros H. apply existsb_exists. exists e. split; [exact He|]. unfold point_on_segment. cbn [nltb F_num].
    destruct (fbd_each e He) as (d' & [_ Hm'] & Nd & _ & B). specialize (Hm' y Hy). rewrite Ed in Hm'. apply (f_ltb _ _ Nd Ne). lra.
  - intros H. apply not_true_iff_false. intros Hr. apply existsb_exists in Hr as (e' & He' & Hr). unfold point_on_segment in Hr. cbn [nltb F_num] in Hr.
    destruct (fbd_each e' He') as (d' & [(y' & Hy' & Ed') _] & Nd & B & _). apply (f_ltb _ _ Nd Ne) in Hr.
    assert (D <= d'); [|lra]. rewrite <- Ed'. apply Hm, bset_in. exists e'. auto.
Qed.
End Bd.

(** ** Faces *)
Definition face_segs (f : face PrimFloat.float) (cs : list (V3 PrimFloat.float)) : list (segment PrimFloat.float) :=
  match f with
  | FQuad q => [mkSeg (q_0 q) (q_1 q); mkSeg (q_1 q) (q_3 q); mkSeg (q_0 q) (q_2 q); mkSeg (q_2 q) (q_3 q)]
  | _ => fsegs cs
  end.
Definition on_edges (f : face PrimFloat.float) (p : V3 PrimFloat.float) (e : PrimFloat.float) : outcome bool :=
  match f with FQuad q => on_quad_boundary p q e | FPoly pg => on_poly_boundary p pg e | FDisk _ => UB end.
Lemma face_on f cs p e : cornered f cs -> on_edges f p e = Ok (existsb (fun s => point_on_segment p s e) (face_segs f cs)).
Proof.
  destruct f as [d|q|pg]; cbn [cornered on_edges face_segs]; [intros []| |]; intros H.
  - exact (fold_or_f (quad_edge q) (fun s => point_on_segment p s e) (seq 0 4) [mkSeg (q_0 q) (q_1 q); mkSeg (q_1 q) (q_3 q); mkSeg (q_0 q) (q_2 q); mkSeg (q_2 q) (q_3 q)] false eq_refl).
  - exact (fold_or_f (poly_edge pg) (fun s => point_on_segment p s e) _ _ false (fpoly_edges cs pg H)).
Qed.
Lemma face_dist (T : Trig PrimFloat.float) f cs top O p : cornered f cs -> ent_dist_boundary top O p (EFace f) = Ok (fold_left nmin (map (dist_segment p) (face_segs f cs)) top).
Proof.
  destruct f as [d|q|pg]; cbn [cornered ent_dist_boundary face_segs]; [intros []| |]; intros H.
  - exact (fold_ok_f (quad_edge q) (dist_segment p) (seq 0 4) [mkSeg (q_0 q) (q_1 q); mkSeg (q_1 q) (q_3 q); mkSeg (q_0 q) (q_2 q); mkSeg (q_2 q) (q_3 q)] top eq_refl).
  - exact (fold_ok_f (poly_edge pg) (dist_segment p) _ _ top (fpoly_edges cs pg H)).
Qed.
Lemma side_sym M a b : side M a b -> side M b a.
Proof.
  assert (forall x y, gap x y -> gap y x) as K.
  { intros x y [H|H]; [left; lra|right]. rewrite Rabs_minus_sym. exact H. }
  intros (A & B & (G1 & G2 & G3) & L). split; [exact B|]. split; [exact A|]. split; [split; [|split]; apply K; assumption|].
  rewrite norm_swap. exact L.
Qed.
Lemma face_seg_set f cs : cornered f cs -> forall x, boundary (map val3 cs) x <-> seg_set (map val_seg (face_segs f cs)) x.
Proof.
  destruct f as [d|q|pg]; cbn [cornered face_segs]; [intros []| |]; intros H x.
  - subst cs. symmetry. apply (quad_segs_set (val3 (q_0 q)) (val3 (q_1 q)) (val3 (q_2 q)) (val3 (q_3 q))).
  - rewrite fsegs_val by exact (proj2 (fpoly_cs cs pg H)). symmetry. apply segs_set.
Qed.
Lemma face_side M f cs : cornered f cs -> outline M cs -> forall e, In e (face_segs f cs) -> side M (s_src e) (s_tgt e).
Proof.
  destruct f as [d|q|pg]; cbn [cornered face_segs]; [intros []| |]; intros H O e He.
  - subst cs. assert (forall a b, In a [q_2 q; q_0 q; q_1 q; q_3 q] -> In b [q_2 q; q_0 q; q_1 q; q_3 q] ->
      In (val3 a, val3 b) (edges (map val3 [q_2 q; q_0 q; q_1 q; q_3 q])) -> side M a b) as K by exact O.
    cbn [map] in K. rewrite edges4 in K. destruct He as [<-|[<-|[<-|[<-|[]]]]]; cbn [s_src s_tgt].
    + apply K; cbn; auto 6.
    + apply K; cbn; auto 6.
    + apply side_sym, K; cbn; auto 6.
    + apply side_sym, K; cbn; auto 8.
  - destruct (fsegs_in cs e He) as [A B]. apply O; try assumption.
    assert (In (val_seg e) (segs (map val3 cs))) as I by (rewrite <- fsegs_val by exact (proj2 (fpoly_cs cs pg H)); apply in_map, He).
    apply in_map_iff in I as ((a & b) & E & I). unfold val_seg in E. cbn [fst snd] in E. injection E as -> ->. exact I.
Qed.
Lemma face_below N f cs : cornered f cs -> edges_below N (map val3 cs) -> forall e, In e (face_segs f cs) -> dist (val3 (s_src e)) (val3 (s_tgt e)) <= N.
Proof.
  destruct f as [d|q|pg]; cbn [cornered face_segs]; [intros []| |]; intros H O e He.
  - subst cs. unfold edges_below in O. cbn [map] in O. rewrite edges4 in O.
    destruct He as [<-|[<-|[<-|[<-|[]]]]]; cbn [s_src s_tgt].
    + apply (O (val3 (q_0 q), val3 (q_1 q))). cbn; auto.
    + apply (O (val3 (q_1 q), val3 (q_3 q))). cbn; auto.
    + rewrite dist_sym. apply (O (val3 (q_2 q), val3 (q_0 q))). cbn; auto.
    + rewrite dist_sym. apply (O (val3 (q_3 q), val3 (q_2 q))). cbn; auto 6.
  - assert (In (val_seg e) (segs (map val3 cs))) as I by (rewrite <- fsegs_val by exact (proj2 (fpoly_cs cs pg H)); apply in_map, He).
    apply in_map_iff in I as ((a & b) & E & I). unfold val_seg in E. cbn [fst snd] in E. injection E as E1 E2. rewrite <- E1, <- E2. exact (O _ I).
Qed.

Lemma boundary_distance : forall (T : Trig PrimFloat.float) top O f cs M N p D, moderate M -> point_upto M p -> cornered f cs -> outline M cs -> edges_below N (map val3 cs) ->
  number top -> dist_to (boundary (map val3 cs)) (val3 p) D -> D + powerRZ 2 (-45) * M <= val top ->
  exists m, ent_dist_boundary top O p (EFace f) = Ok m /\ number m /\ D - (N / 10000000 + powerRZ 2 (-42) * M) <= val m <= D + powerRZ 2 (-45) * M.
Proof.
  intros T top O f cs M N p D HM Hp Hc Ho Hn Nt Hd Ht. eexists. split; [apply (face_dist T f cs top O p Hc)|].
  apply (fbd_min _ p M N HM Hp (face_side M f cs Hc Ho) (face_below N f cs Hc Hn) top D Nt); [|exact Ht].
  apply (dist_to_ext (boundary (map val3 cs))); [apply face_seg_set, Hc|exact Hd].
Qed.
Lemma on_edges_dbl f cs M N p e D : moderate M -> point_upto M p -> cornered f cs -> outline M cs -> edges_below N (map val3 cs) ->
  number e -> dist_to (boundary (map val3 cs)) (val3 p) D ->
  exists r, on_edges f p e = Ok r /\ (D + powerRZ 2 (-45) * M < val e -> r = true) /\ (val e + (N / 10000000 + powerRZ 2 (-42) * M) <= D -> r = false).
Proof.
  intros HM Hp Hc Ho Hn Ne Hd. eexists. split; [apply (face_on f cs p e Hc)|].
  apply (fbd_on _ p M N HM Hp (face_side M f cs Hc Ho) (face_below N f cs Hc Hn) e D Ne).
  apply (dist_to_ext (boundary (map val3 cs))); [apply face_seg_set, Hc|exact Hd].
Qed.
Lemma on_quadrilateral : forall (q : quad PrimFloat.float) M N p e D, let cs := [q_2 q; q_0 q; q_1 q; q_3 q] in
  moderate M -> point_upto M p -> outline M cs -> edges_below N (map val3 cs) -> number e -> dist_to (boundary (map val3 cs)) (val3 p) D ->
  exists r, on_quad_boundary p q e = Ok r /\ (D + powerRZ 2 (-45) * M < val e -> r = true) /\ (val e + (N / 10000000 + powerRZ 2 (-42) * M) <= D -> r = false).
Proof. intros q M N p e D cs HM Hp. exact (on_edges_dbl (FQuad q) cs M N p e D HM Hp eq_refl). Qed.
Lemma on_polygon : forall cs (pg : poly PrimFloat.float) M N p e D, make_poly cs = Ok pg ->
  moderate M -> point_upto M p -> outline M cs -> edges_below N (map val3 cs) -> number e -> dist_to (boundary (map val3 cs)) (val3 p) D ->
  exists r, on_poly_boundary p pg e = Ok r /\ (D + powerRZ 2 (-45) * M < val e -> r = true) /\ (val e + (N / 10000000 + powerRZ 2 (-42) * M) <= D -> r = false).
Proof. intros cs pg M N p e D Hc HM Hp. exact (on_edges_dbl (FPoly pg) cs M N p e D HM Hp Hc). Qed.

(** ** Lengths *)
Lemma length_dbl : forall M s t, moderate M -> point_upto M s -> point_upto M t ->
  let l := length_segment (mkSeg s t) in number l /\ Rabs (val l - dist (val3 s) (val3 t)) <= powerRZ 2 (-48) * M.
Proof.
  intros M s t HM Hs Ht. destruct (end_len s M (moderate_x M HM) Hs t Ht) as [Nl El]. cbv zeta. unfold length_segment, seg_len. cbn [s_src s_tgt].
  split; [exact Nl|]. eapply Rle_trans; [exact El|]. rewrite two_p. change (bpow radix2 (-48)) with (/ 281474976710656). unfold U.
  assert (0 < M). { destruct HM as [A _]. rewrite two_p in A. pose proof (bpow_gt_0 radix2 (-400)). lra. } lra.
Qed.
Lemma length_constraint : forall (T : Trig PrimFloat.float) top O M f1 f2 e m s t, moderate M -> point_upto M s -> point_upto M t -> number m ->
  ent_intersect_eps O (EFace f1) (EFace f2) e = Ok [PSegment s t] ->
  exists b, ent_evaluate top O (length_only e m) (EFace f1) (EFace f2) = Ok b /\
    (val m + powerRZ 2 (-48) * M <= dist (val3 s) (val3 t) -> b = true) /\ (dist (val3 s) (val3 t) + powerRZ 2 (-48) * M < val m -> b = false).
Proof.
  intros T top O M f1 f2 e m s t HM Hs Ht Nm E. destruct (length_dbl M s t HM Hs Ht) as [Nl El]. set (l := length_segment (mkSeg s t)) in *.
  exists (PrimFloat.leb m l). split.
  - unfold ent_evaluate, evaluate, length_only. cbn [crun fold_left cstep c_init useMinIsMagnitude useMinIsAngle useMinIsDistance useMinDistance
      useIntersectionEps intersectionEps allowEquiDimIS minIsMagnitude orb negb andb obind].
    change (k_intersect (ent_kernel top O) (Some e) (EFace f1) (EFace f2)) with (ent_intersect_eps O (EFace f1) (EFace f2) e).
    rewrite E. cbn [obind]. change (k_dim (ent_kernel top O) (EFace f1)) with 2%Z. change (negb (is_empty [PSegment s t])) with true. cbn match.
    change (negb (adm_dim (ent_kernel top O) (2 - 1) [PSegment s t])) with false. cbn match.
    assert (adm_mag (fun x y : PrimFloat.float => nleb y x) (ent_kernel top O) m [PSegment s t] = Ok (PrimFloat.leb m l)) as ->.
    { unfold adm_mag, all_of, adm_mag_piece. change (decidable.bool_decide (piece_dim (ent_kernel top O) (PSegment s t) = 0%Z)) with false. cbn [is_empty_piece].
      change (k_magnitude (ent_kernel top O) (PSegment s t)) with (Ok l). cbn [obind nleb F_num]. destruct (PrimFloat.leb m l); reflexivity. }
    cbn [obind]. destruct (PrimFloat.leb m l); reflexivity.
  - apply Rabs_def2_le in El. split; intros H; [apply (f_leb _ _ Nm Nl); lra|apply (f_leb_false _ _ Nm Nl); lra].
Qed.

(** ** The constraint on the distance to the boundaries *)
Section Clear.
Context (T : Trig PrimFloat.float).
Variables (top : PrimFloat.float) (O : ent_ops PrimFloat.float) (M N : R).
Hypothesis HM : moderate M.
Hypothesis Nt : number top.
Hypothesis Ht : powerRZ 2 500 <= val top.
Let slack := N / 10000000 + powerRZ 2 (-42) * M.

Lemma face_seg_ex f cs : cornered f cs -> exists e, In e (face_segs f cs).
Proof.
  destruct f as [d|q|pg]; cbn [cornered face_segs]; [intros []| |]; intros H; [eexists; left; reflexivity|].
  destruct (fpoly_cs cs pg H) as [_ L]. destruct cs as [|c cs]; [cbn in L; lia|]. eexists. left. reflexivity.
Qed.
Lemma boundary_ex f cs p : cornered f cs -> outline M cs -> point_upto M p ->
  exists D, dist_to (boundary (map val3 cs)) (val3 p) D /\ D + powerRZ 2 (-45) * M <= val top.
Proof.
  intros Hc Ho Hp. destruct (face_seg_ex f cs Hc) as [e He]. destruct (bd_exists (map val_seg (face_segs f cs)) (val3 p)) as [D HD].
  - intros e' He'. apply in_map_iff in He' as (e'' & <- & He''). destruct (face_side M f cs Hc Ho e'' He'') as (_ & _ & _ & L & _). exact (s_not_t _ _ L).
  - intros E. apply (in_map val_seg) in He. rewrite E in He. exact He.
  - exists D. split; [apply (dist_to_ext (seg_set (map val_seg (face_segs f cs)))); [intros x; symmetry; apply face_seg_set, Hc|exact HD]|].
    destruct (face_side M f cs Hc Ho e He) as ([_ (A1 & A2 & A3)] & _). destruct Hp as [_ (B1 & B2 & B3)].
    assert (D <= 3467 / 1000 * M) as B.
    { destruct HD as [_ Hm]. eapply Rle_trans; [apply (Hm (val3 (s_src e)))|].
      - exists (val_seg e). split; [apply in_map, He|]. exists 0. split; [lra|]. unfold val_seg, padd, pscale, psub, val3. cbn [s_src s_tgt vx vy vz]. f_equal; ring.
      - unfold dist. assert (forall x y, Rabs x <= M -> Rabs y <= M -> Rabs (x - y) <= 2 * M) as K by (intros x y X Y; apply Rabs_def2_le in X, Y; apply Rabs_le; lra).
        eapply Rle_trans; [apply (norm_le _ (2 * M)); unfold psub, val3; cbn [vx vy vz]; apply K; assumption|].
        destruct HM as [M0 _]. rewrite two_p in M0. pose proof (bpow_gt_0 radix2 (-400)). lra. }
    destruct HM as [M0 M1]. rewrite two_p in M0, M1. pose proof (bpow_gt_0 radix2 (-400)). rewrite two_p in Ht |- *.
    assert (bpow radix2 (-45) * M <= 1 * M) as E1 by (apply Rmult_le_compat_r; [lra|]; change 1 with (bpow radix2 0); apply bpow_le; lia).
    assert (8 * bpow radix2 400 <= bpow radix2 500) as E2 by (change 8 with (bpow radix2 3); rewrite <- bpow_plus; apply bpow_le; lia). lra.
Qed.
Lemma point_clear f cs p m e : cornered f cs -> outline M cs -> edges_below N (map val3 cs) -> point_upto M p -> number m -> ent_eps (EFace f) = Ok e -> number e ->
  exists b, adm_db_point (fun x y => nleb y x) (ent_kernel top O) m p (EFace f) = Ok b /\
    (clear_of cs (val m + slack) p \/ near_to cs (val e - powerRZ 2 (-45) * M) p -> b = true) /\ (clear_of cs (val e + slack) p -> near_to cs (val m - powerRZ 2 (-45) * M) p -> b = false).
Proof.
  intros Hc Ho Hn Hp Nm Ee Ne. destruct (boundary_ex f cs p Hc Ho Hp) as (D & HD & HT).
  destruct (boundary_distance T top O f cs M N p D HM Hp Hc Ho Hn Nt HD HT) as (d & Ed & Nd & B1 & B2).
  destruct (on_edges_dbl f cs M N p e D HM Hp Hc Ho Hn Ne HD) as (r & Er & R1 & R2). fold slack in B1, R2.
  assert (ent_on_boundary O p (EFace f) = Ok r) as Eo.
  { rewrite <- Er. destruct f as [k|q|pg]; cbn [cornered] in Hc; [contradiction| |]; cbn [ent_on_boundary on_edges ent_eps] in *.
    - injection Ee as <-. reflexivity.
    - unfold on_poly_boundary_default. rewrite Ee. reflexivity. }
  unfold adm_db_point. cbn [ent_kernel k_on_boundary k_dist_boundary]. rewrite Eo. cbn [obind]. rewrite Ed. cbn [obind].
  destruct HD as [(y & Hy & Ey) Hmin].
  exists (if r then true else nleb m d). split; [destruct r; reflexivity|]. split.
  - intros [C|(z & Hz & Lz)]; [|rewrite R1; [reflexivity|]; specialize (Hmin z Hz); lra].
    destruct r; [reflexivity|]. apply (f_leb _ _ Nm Nd). specialize (C y Hy). lra.
  - intros C (z & Hz & Lz). rewrite R2 by (rewrite <- Ey; apply C, Hy). apply (f_leb_false _ _ Nm Nd). specialize (Hmin z Hz). lra.
Qed.
End Clear.

Lemma boundary_constraint : forall (T : Trig PrimFloat.float) top O M N f1 f2 cs1 cs2 e m e1 e2 i, number top -> powerRZ 2 500 <= val top ->
  moderate M -> cornered f1 cs1 -> cornered f2 cs2 -> outline M cs1 -> outline M cs2 -> edges_below N (map val3 cs1) -> edges_below N (map val3 cs2) ->
  number m -> ent_eps (EFace f1) = Ok e1 -> ent_eps (EFace f2) = Ok e2 -> number e1 -> number e2 ->
  ent_intersect_eps O (EFace f1) (EFace f2) e = Ok [i] -> ends i <> [] -> (forall p, In p (ends i) -> point_upto M p) ->
  let slack := N / 10000000 + powerRZ 2 (-42) * M in
  exists b, ent_evaluate top O (boundary_only e m) (EFace f1) (EFace f2) = Ok b /\
    ((forall p, In p (ends i) ->
       (clear_of cs1 (val m + slack) p \/ near_to cs1 (val e1 - powerRZ 2 (-45) * M) p) /\
       (clear_of cs2 (val m + slack) p \/ near_to cs2 (val e2 - powerRZ 2 (-45) * M) p)) -> b = true) /\
    (forall p, In p (ends i) ->
       (clear_of cs1 (val e1 + slack) p /\ near_to cs1 (val m - powerRZ 2 (-45) * M) p) \/
       (clear_of cs2 (val e2 + slack) p /\ near_to cs2 (val m - powerRZ 2 (-45) * M) p) -> b = false).
Proof.
  intros T top O M N f1 f2 cs1 cs2 e m e1 e2 i Nt Ht HM C1 C2 O1 O2 B1 B2 Nm E1 E2 N1 N2 E Hi Hp. cbv zeta.
  pose proof (fun p H => point_clear T top O M N HM Nt Ht f1 cs1 p m e1 C1 O1 B1 H Nm E1 N1) as P1.
  pose proof (fun p H => point_clear T top O M N HM Nt Ht f2 cs2 p m e2 C2 O2 B2 H Nm E2 N2) as P2.
  set (slack := N / 10000000 + powerRZ 2 (-42) * M) in *.
  unfold ent_evaluate, evaluate, boundary_only. cbn [crun fold_left cstep c_init useMinIsMagnitude useMinIsAngle useMinIsDistance useMinDistance
      useIntersectionEps intersectionEps allowEquiDimIS minIsDistance orb negb andb obind].
  change (k_intersect (ent_kernel top O) (Some e) (EFace f1) (EFace f2)) with (ent_intersect_eps O (EFace f1) (EFace f2) e).
  rewrite E. cbn [obind]. change (k_dim (ent_kernel top O) (EFace f1)) with 2%Z.
  destruct i as [|p|s t| | | | |]; cbn [ends] in Hi, Hp |- *; try congruence.
  - destruct (P1 p (Hp p (or_introl eq_refl))) as (b1 & Q1 & T1 & F1). destruct (P2 p (Hp p (or_introl eq_refl))) as (b2 & Q2 & T2 & F2).
    exists (b1 && b2). split.
    + change (negb (is_empty [PPoint p])) with true. change (negb (adm_dim (ent_kernel top O) (2 - 1) [PPoint p])) with false. cbn match. cbn [obind negb].
      unfold adm_db, all_of, adm_db_piece. rewrite Q1. cbn [obind]. destruct b1; [|reflexivity]. cbn [obind negb andb]. rewrite Q2. cbn [obind]. destruct b2; reflexivity.
    + split.
      * intros H. destruct (H p (or_introl eq_refl)) as [H1 H2]. rewrite T1, T2 by assumption. reflexivity.
      * intros p' [<-|[]] [[A B]|[A B]]; [rewrite (F1 A B); reflexivity|rewrite (F2 A B); apply andb_false_r].
  - destruct (P1 s (Hp s (or_introl eq_refl))) as (b1 & Q1 & T1 & F1). destruct (P1 t (Hp t (or_intror (or_introl eq_refl)))) as (b2 & Q2 & T2 & F2).
    destruct (P2 s (Hp s (or_introl eq_refl))) as (b3 & Q3 & T3 & F3). destruct (P2 t (Hp t (or_intror (or_introl eq_refl)))) as (b4 & Q4 & T4 & F4).
    exists (b1 && b2 && b3 && b4). split.
    + change (negb (is_empty [PSegment s t])) with true. change (negb (adm_dim (ent_kernel top O) (2 - 1) [PSegment s t])) with false. cbn match. cbn [obind negb].
      unfold adm_db, all_of, adm_db_piece, adm_db_ends. rewrite Q1. cbn [obind]. destruct b1; [|reflexivity]. rewrite Q2. cbn [obind]. destruct b2; [|reflexivity]. cbn [obind negb andb].
      rewrite Q3. cbn [obind]. destruct b3; [|reflexivity]. rewrite Q4. cbn [obind]. destruct b4; reflexivity.
    + split.
      * intros H. destruct (H s (or_introl eq_refl)) as [H1 H2]. destruct (H t (or_intror (or_introl eq_refl))) as [H3 H4]. rewrite T1, T2, T3, T4 by assumption. reflexivity.
      * intros p' [<-|[<-|[]]] [[A B]|[A B]]; [rewrite (F1 A B)|rewrite (F3 A B)|rewrite (F2 A B)|rewrite (F4 A B)]; rewrite ?andb_false_r; reflexivity.
Qed.
